(** * Property C68: concurrent transactions on a field index stored in a ZODB
    (field/index.py, with the conflict resolution of BTrees and Length)

    [zf_run schedule]: the committed versions, the latest first, of an index on which the
    transactions of [schedule] committed in turn.  A transaction [(i, ops)] began with
    version [i] (0: the latest at the time of its commit; 1: the one before that, so that
    another transaction has committed in between; ...) and made the calls [ops].  If it meets
    a conflict there is no new version.  [zrev st]: the documents of a version with their
    values. *)
From Verif Require Import S_field M_zodb S_zodb L_zfield L_zfieldex SMap Ord.

(** C68: every version ever committed is one that a single client would obtain by
    indexing the documents of that version; ... *)
Theorem C68_consistent : forall T (OT : Ord T) schedule (st : zstate (pyval T) (pyval T)), In st (zf_run schedule) ->
  zf_view st = f_run (index_all (zrev st)) /\ current (index_all (zrev st)) = zrev st.
Proof. exact @zf_consistent_view. Qed.
Print Assumptions C68_consistent.
(** ... a commit combines, document by document, the transaction's changes with those
    others committed since it began, or one of both is lost if there was a clear; ... *)
Theorem C68_commit : forall T (OT : Ord T) schedule i ops (st : zstate (pyval T) (pyval T)),
  zf_commit (zf_run schedule) i ops = Some st ->
  exists cur snap, hd_error (zf_run schedule) = Some cur /\ nth_error (zf_run schedule) i = Some snap /\
    committed (cleared_since snap cur) (clears_f ops) (zrev snap) (zrev cur)
              (fold_left current_step ops (zrev snap)) (zrev st).
Proof. exact @zf_commit_ok. Qed.
Print Assumptions C68_commit.
(** ... until its commit a transaction sees the version it began with and its own changes; ... *)
Theorem C68_isolated : forall T (OT : Ord T) schedule (cur snap : zstate (pyval T) (pyval T)) ops,
  In snap (zf_run schedule) -> hd_error (zf_run schedule) = Some cur ->
  zf_view (z_exec zf_step ops (z_begin cur snap)) = f_run (index_all (zrev snap) ++ ops).
Proof. exact @zf_isolated_view. Qed.
Print Assumptions C68_isolated.
(** ... and if nobody else changed the documents it concerns, nobody cleared the index, and
    its values can be ordered with all others, it is as if it had begun just before its commit. *)
Theorem C68_serial : forall T (OT : Ord T) schedule i ops (st cur snap : zstate (pyval T) (pyval T)),
  zf_commit (zf_run schedule) i ops = Some st ->
  hd_error (zf_run schedule) = Some cur -> nth_error (zf_run schedule) i = Some snap ->
  cleared_since snap cur = false -> clears_f ops = false ->
  (forall d, In d (docs_of ops) -> get (zrev cur) d = get (zrev snap) d) ->
  (forall v w, In v (values_of ops) ->
     (exists d, get (zrev snap) d = Some w) \/ (exists d, get (zrev cur) d = Some w) \/ In w (values_of ops) ->
     key_ok v w = true) ->
  zf_view st = f_run (index_all (zrev cur) ++ ops).
Proof. exact @zf_serial. Qed.
Print Assumptions C68_serial.
(** A transaction that began with the latest version never meets a conflict, and has the
    effect its calls have; ... *)
Theorem C68_alone : forall T (OT : Ord T) schedule ops, exists cur st : zstate (pyval T) (pyval T),
  hd_error (zf_run schedule) = Some cur /\ zf_commit (zf_run schedule) 0 ops = Some st /\
  zf_view st = f_run (index_all (zrev cur) ++ ops).
Proof. exact @zf_alone. Qed.
Print Assumptions C68_alone.
(** ... so that for a single client transactions make no difference. *)
Theorem C68_one_client : forall T (OT : Ord T) (transactions : list (list (fop T))), exists st : zstate (pyval T) (pyval T),
  hd_error (zf_run (map (pair 0%nat) transactions)) = Some st /\ zf_view st = f_run (concat transactions).
Proof. exact @zf_one_client. Qed.
Print Assumptions C68_one_client.
(** A transaction that commits makes one version, and one that meets a conflict none. *)
Theorem C68_attempt : forall T (OT : Ord T) schedule i (ops : list (fop T)),
  zf_run (schedule ++ [(i, ops)]) =
    match zf_commit (zf_run schedule) i ops with Some st => st :: zf_run schedule | None => zf_run schedule end.
Proof. exact (fun T OT schedule i ops => fold_left_app _ schedule [(i, ops)] _). Qed.
Print Assumptions C68_attempt.

(** Concurrent transactions that commit, and some that meet a conflict. *)
Example C68_used :
  length (zf_run zf_example) = 4%nat /\
  zf_documents zf_example = Some [(1, VInt 20); (3, VInt 10); (4, VInt 30); (5, VInt 10); (6, VInt 20)] /\
  (exists st, zf_commit (zf_run zf_example) 2 [FIndex 8 (VInt 20); FIndex 9 (VInt 50)] = Some st) /\
  zf_commit (zf_run zf_example) 2 [FIndex 1 (VInt 30)] = None /\
  zf_commit (zf_run zf_example) 2 [FIndex 4 (VInt 40)] = None /\
  zf_commit (zf_run zf_example) 2 [FIndex 7 (VInt 30)] = None /\
  zf_commit (zf_run zf_example) 2 [FUnindex 2; FUnindex 6] = None.
Proof. exact zf_example_ok. Qed.

Example C68_serial_used : exists cur snap st,
  let before := firstn 2 zf_example in let ops := [FUnindex 2; FIndex 5 (VInt 10)] in
  zf_commit (zf_run before) 1 ops = Some st /\
  hd_error (zf_run before) = Some cur /\ nth_error (zf_run before) 1 = Some snap /\ get (zrev cur) 4 <> get (zrev snap) 4 /\
  cleared_since snap cur = false /\ clears_f ops = false /\
  (forall d, In d (docs_of ops) -> get (zrev cur) d = get (zrev snap) d) /\
  (forall v w, In v (values_of ops) ->
     (exists d, get (zrev snap) d = Some w) \/ (exists d, get (zrev cur) d = Some w) \/ In w (values_of ops) ->
     key_ok v w = true).
Proof. exact zf_serial_example. Qed.

(** Transactions are not serializable: two may commit although the outcome is that of
    neither order. *)
Theorem C68_serializable_refuted : exists base ta tb st v1 v2 v3,
  @zf_run Z _ [(0%nat, base); (0%nat, ta); (1%nat, tb)] = [st; v1; v2; v3] /\
  (exists v d, in_answer (VInt v) (VInt v) (zf_view st) d /\ ~ in_answer (VInt v) (VInt v) (f_run (base ++ ta ++ tb)) d) /\
  (exists v d, in_answer (VInt v) (VInt v) (zf_view st) d /\ ~ in_answer (VInt v) (VInt v) (f_run (base ++ tb ++ ta)) d).
Proof. exact zf_skew. Qed.
Print Assumptions C68_serializable_refuted.
(** A document indexed by a transaction that commits after a concurrent clear is lost. *)
Theorem C68_clear_refuted : exists base d v st v1 v2 v3,
  @zf_run Z _ [(0%nat, base); (0%nat, [FClear]); (1%nat, [FIndex d (VInt v)])] = [st; v1; v2; v3] /\
  (forall d', get (zrev st) d' = None) /\
  (exists s, f_apply (QTuple [VInt v; VInt v]) (zf_view st) = Ok s /\ mem d s = false) /\
  in_answer (VInt v) (VInt v) (f_run (base ++ [FClear] ++ [FIndex d (VInt v)])) d /\
  in_answer (VInt v) (VInt v) (f_run (base ++ [FIndex d (VInt v)])) d.
Proof. exact zf_clear_loses. Qed.
Print Assumptions C68_clear_refuted.
