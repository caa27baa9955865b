(** * Specification of concurrent transactions

    A transaction began with the committed version [snap]; others have committed
    since, [cur] being the latest version; [own] is what the transaction sees at its
    end and [new] the version its commit creates.  The four are mappings from
    documents to their values. *)
From Verif Require Export S_field S_keyword M_zodb SMap PyVal Ord.

Definition committed {X : Type} (cleared_since cleared_here : bool) (snap cur own new : smap Z X) : Prop :=
  match cleared_since, cleared_here with
  | false, false => forall d,
      (* not changed by the transaction: as before the commit *)
      (get own d = get snap d -> get new d = get cur d) /\
      (* changed by the transaction: not changed by the others, and as the transaction left it *)
      (get own d <> get snap d -> get cur d = get snap d /\ get new d = get own d)
  | true, false => new = cur   (* the transaction's changes are lost *)
  | false, true => new = own   (* the others' changes are lost *)
  | true, true => False        (* a conflict *)
  end.

(** Somebody cleared the index between the versions [snap] and [cur]. *)
Definition cleared_since {V X : Type} `{Ord V} (snap cur : zstate V X) : bool := negb (zgen cur =? zgen snap).

Section Field.
  Context {T : Type} `{OT : Ord T}.
  Definition clears_f (ops : list (fop T)) : bool := existsb (fun o => match o with FClear => true | _ => false end) ops.
  (** Index the documents of [m] one after the other. *)
  Definition index_all (m : smap Z (pyval T)) : list (fop T) := map (fun p => FIndex (fst p) (snd p)) (elts m).
  (** The calls made by a transaction concern these documents, with these values. *)
  Definition docs_of (ops : list (fop T)) : list Z :=
    concat (map (fun o => match o with FIndex d _ => [d] | FUnindex d => [d] | FClear => [] end) ops).
End Field.

Section Keyword.
  Context {W : Type} `{OW : Ord W}.
  Definition clears_k (ops : list (kop W)) : bool := existsb (fun o => match o with KClear => true | _ => false end) ops.
  Definition sets_threshold (ops : list (kop W)) : bool := existsb (fun o => match o with KThreshold _ => true | _ => false end) ops.
  (** The documents the calls are about. *)
  Definition docs_of_k (ops : list (kop W)) : list Z :=
    concat (map (fun o => match o with KIndex d _ => [d] | KUnindex d => [d] | _ => [] end) ops).
  (** Index the documents of [m], whose keywords are normalized, one after the other. *)
  Definition index_all_k (m : smap Z (sset W)) : list (kop W) :=
    map (fun p => KIndex (fst p) (SeqList (selems (snd p)))) (elts m).
  (** No keyword belongs to [n] documents or more. *)
  Definition all_below (n : Z) (m : smap Z (sset W)) : Prop :=
    forall w, Zlen (filter (fun p => mem w (snd p)) (elts m)) < n.

  Variable normalize : list W -> list W.
  Variable thr : Z.
  (** The calls of the schedule satisfy [op_normal], and at no moment of a
      transaction does it see a keyword with tree_threshold documents or more. *)
  Definition normal_schedule (sch : list (nat * list (kop W))) : Prop :=
    Forall (fun t => normal_history normalize (snd t)) sch.
  Definition stays_below (sch : list (nat * list (kop W))) : Prop :=
    forall sch1 i ops sch2, sch = sch1 ++ (i, ops) :: sch2 ->
    forall snap, nth_error (zk_run normalize thr sch1) i = Some snap ->
    forall ops1 ops2, ops = ops1 ++ ops2 -> all_below thr (fold_left (kw_step normalize) ops1 (zrev snap)).
End Keyword.
