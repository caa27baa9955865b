(** * Specification of a topic index stored in a database *)
From Verif Require Export M_ptopic S_topic M_topic SMap Ord.

Section Spec.
  Context {I : Type} `{OI : Ord I} {E C : Type}.
  Variable eval : E -> Z -> C -> evres.
  Notation filts := (smap I (filt I E)).
  Notation pevent := (pevent I E C).

  (** What one expects of a database: a pair of the index in memory and the one saved.
      Calls change the former, a commit saves it, an abort or restart restores it. *)
  Definition ideal_step (s : filts * filts) (e : pevent) : filts * filts :=
    match e with
    | ZCall (PCall o) => (fst (t_step eval (fst s) o), snd s)
    | ZCall (PAgain _) => s
    | ZCommit _ => (fst s, fst s)
    | ZAbort _ | ZRestart => (snd s, snd s)
    | ZEvict _ => s
    end.
  Definition ideal (evs : list pevent) : filts * filts := fold_left ideal_step evs (empty, empty).

  (** Which filters had their attributes changed ([clearFilters], [setExpression])
      without having been passed to [addFilter] since. *)
  Definition unsaved_step (u : I -> bool) (e : pevent) : I -> bool :=
    match e with
    | ZCall (PCall TClearFilters) => fun _ => true
    | ZCall (PCall (TSetExpr i _)) => fun j => eqb j i || u j
    | ZCall (PCall (TAdd f)) => fun j => negb (eqb j (f_id f)) && u j
    | ZCall (PAgain i) | ZCall (PCall (TDel i)) => fun j => negb (eqb j i) && u j
    | ZCall (PCall TClear) | ZAbort _ | ZRestart => fun _ => false
    | _ => u
    end.
  Definition unsaved (evs : list pevent) : I -> bool := fold_left unsaved_step evs (fun _ => false).

  (** A program is careful if at the end of a transaction, and before [clear], it has no
      such filters. *)
  Definition boundary (e : pevent) : Prop :=
    match e with ZCall (PCall TClear) | ZCommit _ | ZAbort _ | ZEvict _ | ZRestart => True | ZCall _ => False end.
  Definition careful (evs : list pevent) : Prop :=
    forall evs1 e evs2, evs = evs1 ++ e :: evs2 -> boundary e ->
    forall i, mem i (fst (ideal evs1)) = true -> unsaved evs1 i = false.

  (** Calls and commits that never assign or delete a key of the BTree of filters; every
      filter has a bucket of its own. *)
  Definition quiet (e : pevent) : Prop :=
    match e with
    | ZCall (PCall (TIndex _ _)) | ZCall (PCall (TUnindex _)) | ZCall (PCall TClearFilters)
    | ZCall (PCall (TSetExpr _ _)) => True
    | ZCommit x => x = empty
    | _ => False
    end.
End Spec.
