(** * C83: concurrent transactions on a topic index stored in a ZODB

    [tz_run eval schedule] are the committed versions of a topic index, the latest first,
    after the transactions of [schedule] were attempted one after the other; [(i, ops)] is a
    transaction that began with version [i] (0: the latest) and made the calls [ops].  [view]
    is the index without the identities of its filter objects (M_topic.v), [t_step] one call
    on it; S_ztopic.v says what it means to combine two transactions. *)
From Verif Require Import Prelude S_ztopic L_ztopic L_ztserial L_ztopicex SMap Ord.

(** A commit combines, filter by filter and document by document, the transaction's changes
    with those others committed since it began, or one of both is lost if there was a clear;
    a filter added, replaced or removed on one side loses what the other side did to it. *)
Theorem C83_commit : forall (I : Type) (OI : Ord I) (E C : Type) (eval : E -> Z -> C -> evres) schedule i (ops : list (zop I E C)) st,
  tz_commit eval (tz_run eval schedule) i ops = Some st ->
  exists cur snap own, hd_error (tz_run eval schedule) = Some cur /\ nth_error (tz_run eval schedule) i = Some snap /\
    view own = fold_left (fun s o => fst (t_step eval s (to_top o))) ops (view snap) /\
    tcommitted (cleared_since snap cur) (clears ops) snap cur own st.
Proof. exact (fun I OI E C eval => tz_commit_ok eval). Qed.
Print Assumptions C83_commit.
Example C83_commit_used : length (tz_run zeval (zt_two ++ [(1%nat, zt_ops)])) = 4%nat /\
  hd_show zt_two = Some [(1, [1; 4]); (2, [3])] /\ hd_show (zt_two ++ [(1%nat, zt_ops)]) = Some [(1, [1; 4; 5]); (2, [6])].
Proof. exact zt_used. Qed.

(** If meanwhile nobody added, replaced or removed filters or cleared the index, and nobody
    changed where the documents stand that a transaction indexes and unindexes, its commit is
    as good as the same calls made on the latest version. *)
Theorem C83_serial : forall (I : Type) (OI : Ord I) (E C : Type) (eval : E -> Z -> C -> evres) schedule i (ops : list (zop I E C)) st cur snap,
  tz_commit eval (tz_run eval schedule) i ops = Some st ->
  hd_error (tz_run eval schedule) = Some cur -> nth_error (tz_run eval schedule) i = Some snap ->
  cleared_since snap cur = false -> (forall j, filter_object cur j = filter_object snap j) ->
  documents_only ops -> (forall d j, In d (docs_of ops) -> has cur j d = has snap j d) ->
  view st = fold_left (fun s o => fst (t_step eval s (to_top o))) ops (view cur).
Proof. exact (fun I OI E C eval => tz_serial eval). Qed.
Print Assumptions C83_serial.
Example C83_serial_used : exists st cur snap,
  tz_commit zeval (tz_run zeval zt_two) 1 zt_ops = Some st /\
  hd_error (tz_run zeval zt_two) = Some cur /\ nth_error (tz_run zeval zt_two) 1 = Some snap /\ cleared_since snap cur = false /\
  (forall j, filter_object cur j = filter_object snap j) /\ documents_only zt_ops /\
  (forall d j, In d (docs_of zt_ops) -> has cur j d = has snap j d) /\
  has cur 1 4 <> has snap 1 4 /\ has cur 1 2 <> has snap 1 2 /\ has st 1 4 = true /\ has st 1 5 = true.
Proof. exact zt_serial_used. Qed.

(** Two transactions that only index and unindex meet a conflict exactly if they clash in some
    filter: both changed its documents, and the same document, or no documents are left on one
    side or after both. *)
Theorem C83_conflict : forall (I : Type) (OI : Ord I) (E C : Type) (eval : E -> Z -> C -> evres) schedule i (ops : list (zop I E C)) cur snap own,
  hd_error (tz_run eval schedule) = Some cur -> nth_error (tz_run eval schedule) i = Some snap ->
  cleared_since snap cur = false -> (forall j, filter_object cur j = filter_object snap j) -> documents_only ops ->
  view own = fold_left (fun s o => fst (t_step eval s (to_top o))) ops (view snap) ->
  (tz_commit eval (tz_run eval schedule) i ops = None <-> exists j, clash snap cur own j).
Proof. exact (fun I OI E C eval => tz_clash eval). Qed.
Print Assumptions C83_conflict.
Example C83_conflict_used : zt_try 1 zt_ops = true /\ zt_try 1 [ZUnindex 1] = true /\
  zt_try 1 [ZUnindex 2; ZIndex 5 1] = false /\ zt_try 1 [ZIndex 4 1] = false /\ zt_try 1 [ZUnindex 1; ZUnindex 2] = false /\
  zt_try 1 [ZAdd (zfilter 3); ZIndex 8 3] = true /\ zt_try 1 [ZDel 1] = true /\ zt_try 1 [ZClear] = true.
Proof. exact zt_tries. Qed.

(** A transaction that began with the latest version never meets a conflict, and its commit
    makes its calls. *)
Theorem C83_latest : forall (I : Type) (OI : Ord I) (E C : Type) (eval : E -> Z -> C -> evres) schedule (ops : list (zop I E C)) cur,
  hd_error (tz_run eval schedule) = Some cur ->
  exists st, tz_commit eval (tz_run eval schedule) 0 ops = Some st /\
    view st = fold_left (fun s o => fst (t_step eval s (to_top o))) ops (view cur).
Proof. exact (fun I OI E C eval => tz_latest eval). Qed.
Print Assumptions C83_latest.

(** So with one client, committing is the same as not using transactions (and C30-C34 apply). *)
Theorem C83_one_client : forall (I : Type) (OI : Ord I) (E C : Type) (eval : E -> Z -> C -> evres) (schedule : list (nat * list (zop I E C))),
  (forall t, In t schedule -> fst t = 0%nat) ->
  exists cur, hd_error (tz_run eval schedule) = Some cur /\ view cur = t_run eval (map to_top (all_ops schedule)) /\
    length (tz_run eval schedule) = S (length schedule).
Proof. exact (fun I OI E C eval => tz_one_client eval). Qed.
Print Assumptions C83_one_client.

(** A transaction that commits makes one version, and one that meets a conflict none. *)
Theorem C83_attempt : forall (I : Type) (OI : Ord I) (E C : Type) (eval : E -> Z -> C -> evres) schedule i (ops : list (zop I E C)),
  tz_run eval (schedule ++ [(i, ops)]) =
    match tz_commit eval (tz_run eval schedule) i ops with Some st => st :: tz_run eval schedule | None => tz_run eval schedule end.
Proof. exact (fun I OI E C eval schedule i ops => fold_left_app _ schedule [(i, ops)] _). Qed.
Print Assumptions C83_attempt.

(** It is false that transactions that commit had the effect of some serial order: two
    transactions that each unindex and reindex a document can leave it in the filters of both
    of its values. *)
Theorem C83_serializable_refuted : exists (eval : Z -> Z -> Z -> evres) (base ta tb : list (zop Z Z Z)) st v1 v2 v3 i j d,
  tz_run eval [(0%nat, base); (0%nat, ta); (1%nat, tb)] = [st; v1; v2; v3] /\
  has st i d = true /\ has st j d = true /\
  (forall st', hd_error (tz_run eval [(0%nat, base); (0%nat, ta); (0%nat, tb)]) = Some st' -> has st' i d = false) /\
  (forall st', hd_error (tz_run eval [(0%nat, base); (0%nat, tb); (0%nat, ta)]) = Some st' -> has st' j d = false).
Proof. exact zt_skew_views. Qed.
Print Assumptions C83_serializable_refuted.
