(** * Specification for C82: how a C function must treat references and errors *)
From Verif Require Import Arith M_okascore SMap Ord.

(** How many references to [o] the function owns after the events in [tr] (latest first). *)
Fixpoint held (o : obj) (tr : list event) : Z :=
  match tr with
  | [] => 0
  | ETake o' :: tr => held o tr + (if Z.eqb o o' then 1 else 0)
  | EGive o' :: tr => held o tr - (if Z.eqb o o' then 1 else 0)
  | EUse _ :: tr => held o tr
  end.

(** An object cannot have been freed: it is an argument, which the caller keeps; or the function
    owns a reference to it; or it is an item of a tuple the function owns a reference to. *)
Definition alive (args : list obj) (pair : obj -> option (obj * obj)) (tr : list event) (o : obj) : Prop :=
  In o args \/ 0 < held o tr \/ exists t a b, 0 < held t tr /\ pair t = Some (a, b) /\ (o = a \/ o = b).

(** Only objects that are alive are used, and only references that are owned are given back. *)
Fixpoint disciplined (args : list obj) (pair : obj -> option (obj * obj)) (tr : list event) : Prop :=
  match tr with
  | [] => True
  | EUse o :: tr => alive args pair tr o /\ disciplined args pair tr
  | EGive o :: tr => 0 < held o tr /\ disciplined args pair tr
  | ETake _ :: tr => disciplined args pair tr
  end.

(** The arguments are what they should be: [d2fitems] is a sequence of [items], [d2len] a
    mapping with the content of [lens] that raises KeyError for other keys, and [result] takes any item.
    [docid] says which document id an object stands for. *)
Record proper {F} {AF : Arith F} (E : env F) (result d2fitems d2len : obj) (docid : obj -> Z)
  (items : list (Z * Z)) (lens : smap Z Z) : Prop := mkProper {
  pr_length : forall tr, e_length E tr d2fitems = Some (Z.of_nat (length items));
  pr_item : forall tr i d f, nth_error items i = Some (d, f) -> exists t a b,
    e_getitem E tr d2fitems (Z.of_nat i) = Some t /\ e_pair E t = Some (a, b) /\
    docid a = d /\ forall tr', e_double E tr' b = Some (fofZ f);
  pr_found : forall tr a n, get lens (docid a) = Some n -> exists o,
    e_subscript E tr d2len a = Some o /\ forall tr', e_double E tr' o = Some (fofZ n);
  pr_missing : forall tr a, get lens (docid a) = None -> e_subscript E tr d2len a = None;
  pr_float : forall tr v, e_float E tr v <> None;
  pr_setitem : forall tr d o, e_setitem E tr result d o = true
}.

(** What [result], an empty IF bucket at first, holds after the items set (latest first). *)
Fixpoint stored {F} {AF : Arith F} (docid : obj -> Z) (ws : list (obj * F)) : smap Z F :=
  match ws with
  | [] => empty
  | (d, v) :: ws => put (docid d) (f32 v) (stored docid ws)
  end.
