(** * Property C69: concurrent transactions on a keyword index stored in a ZODB
    (keyword/index.py, with the conflict resolution of BTrees and Length)

    [zk_run normalize thr schedule]: the committed versions, the latest first, of an index
    with tree_threshold [thr]; schedules are those of C68.  [zrev st]: the documents of a
    version with their normalized keywords. *)
From Verif Require Import S_keyword M_zodb S_zodb L_zkeyword L_zkeywordex SMap Ord.

(** C69: if posting sets are TreeSets from the beginning (tree_threshold <= 1), or as long as
    no transaction sees a keyword with tree_threshold documents, then every version ever
    committed answers like an index in which the documents of that version were indexed; ... *)
Theorem C69_consistent : forall W (OW : Ord W) normalize thr schedule (st : zstate W (sset W)),
  normal_schedule normalize schedule -> thr <= 1 \/ stays_below normalize thr schedule ->
  In st (zk_run normalize thr schedule) ->
  same_answers normalize (zk_view thr st) (k_run normalize_id (index_all_k (zrev st))) /\
  keywords normalize_id (index_all_k (zrev st)) = zrev st.
Proof. exact @zk_consistent. Qed.
Print Assumptions C69_consistent.
(** ... a commit combines, document by document, the transaction's changes with those
    others committed since it began, or one of both is lost if there was a clear; ... *)
Theorem C69_commit : forall W (OW : Ord W) normalize thr schedule i ops (st : zstate W (sset W)),
  normal_schedule normalize (schedule ++ [(i, ops)]) -> thr <= 1 \/ stays_below normalize thr (schedule ++ [(i, ops)]) ->
  zk_commit normalize thr (zk_run normalize thr schedule) i ops = Some st ->
  exists cur snap, hd_error (zk_run normalize thr schedule) = Some cur /\
    nth_error (zk_run normalize thr schedule) i = Some snap /\
    committed (cleared_since snap cur) (clears_k ops) (zrev snap) (zrev cur)
              (fold_left (kw_step normalize) ops (zrev snap)) (zrev st).
Proof. exact @zk_commit_ok. Qed.
Print Assumptions C69_commit.
(** ... and if nobody else changed the documents it concerns and nobody cleared the index, it
    is as if it had begun just before its commit. *)
Theorem C69_serial : forall W (OW : Ord W) normalize thr schedule i ops (st cur snap : zstate W (sset W)),
  normal_schedule normalize (schedule ++ [(i, ops)]) -> thr <= 1 \/ stays_below normalize thr (schedule ++ [(i, ops)]) ->
  zk_commit normalize thr (zk_run normalize thr schedule) i ops = Some st ->
  hd_error (zk_run normalize thr schedule) = Some cur -> nth_error (zk_run normalize thr schedule) i = Some snap ->
  cleared_since snap cur = false -> clears_k ops = false ->
  (forall d, In d (docs_of_k ops) -> get (zrev cur) d = get (zrev snap) d) ->
  zrev st = fold_left (kw_step normalize) ops (zrev cur).
Proof. exact @zk_serial. Qed.
Print Assumptions C69_serial.
Example C69_serial_used : exists cur snap st,
  let before := firstn 2 zk_example in let ops := [KUnindex 2; KOptimize; KIndex 5 (SeqList [7; 8; 11])] in
  normal_schedule normalize_id (before ++ [(1%nat, ops)]) /\ stays_below normalize_id 64 (before ++ [(1%nat, ops)]) /\
  zk_commit normalize_id 64 (zk_run normalize_id 64 before) 1 ops = Some st /\
  hd_error (zk_run normalize_id 64 before) = Some cur /\ nth_error (zk_run normalize_id 64 before) 1 = Some snap /\
  get (zrev cur) 4 <> get (zrev snap) 4 /\
  cleared_since snap cur = false /\ clears_k ops = false /\ sets_threshold ops = false /\
  (forall d, In d (docs_of_k ops) -> get (zrev cur) d = get (zrev snap) d).
Proof. exact zk_serial_example. Qed.
(** Until its commit a transaction sees the version it began with and its own changes. *)
Theorem C69_isolated : forall W (OW : Ord W) normalize thr schedule (cur snap : zstate W (sset W)) i ops,
  normal_schedule normalize schedule -> thr <= 1 \/ stays_below normalize thr schedule -> sets_threshold ops = false ->
  nth_error (zk_run normalize thr schedule) i = Some snap -> hd_error (zk_run normalize thr schedule) = Some cur ->
  zk_view thr (z_exec (zk_step normalize thr) ops (z_begin cur snap))
    = fold_left (fun s o => fst (k_step normalize s o)) ops (zk_view thr snap).
Proof. exact @zk_isolated. Qed.
Print Assumptions C69_isolated.
(** A transaction that began with the latest version never meets a conflict, and has the
    effect its calls have, even if it makes a keyword reach tree_threshold or calls optimize. *)
Theorem C69_alone : forall W (OW : Ord W) normalize thr schedule ops,
  normal_schedule normalize schedule -> thr <= 1 \/ stays_below normalize thr schedule -> sets_threshold ops = false ->
  exists cur st : zstate W (sset W), hd_error (zk_run normalize thr schedule) = Some cur /\
    zk_commit normalize thr (zk_run normalize thr schedule) 0 ops = Some st /\
    zk_view thr st = fold_left (fun s o => fst (k_step normalize s o)) ops (zk_view thr cur).
Proof. exact @zk_alone. Qed.
Print Assumptions C69_alone.
(** A transaction that commits makes one version, and one that meets a conflict none. *)
Theorem C69_attempt : forall W (OW : Ord W) normalize thr schedule i (ops : list (kop W)),
  zk_run normalize thr (schedule ++ [(i, ops)]) =
    match zk_commit normalize thr (zk_run normalize thr schedule) i ops with
    | Some st => st :: zk_run normalize thr schedule
    | None => zk_run normalize thr schedule
    end.
Proof. exact (fun W OW normalize thr schedule i ops => fold_left_app _ schedule [(i, ops)] _). Qed.
Print Assumptions C69_attempt.
(** Whatever the threshold, for a single client transactions make no difference. *)
Theorem C69_one_client : forall W (OW : Ord W) normalize thr (transactions : list (list (kop W))),
  Forall (fun ops => sets_threshold ops = false) transactions ->
  exists st, hd_error (zk_run normalize thr (map (pair 0%nat) transactions)) = Some st /\
    zk_view thr st = k_run normalize (KThreshold thr :: concat transactions).
Proof. exact @zk_one_client. Qed.
Print Assumptions C69_one_client.

(** Three transactions, two of them concurrent, that commit, with tree_threshold 64 and 1;
    and two, from an old version, that meet a conflict. *)
Example C69_used :
  normal_schedule normalize_id zk_example /\ stays_below normalize_id 64 zk_example /\
  (forall thr, thr = 64 \/ thr = 1 ->
    length (zk_run normalize_id thr zk_example) = 4%nat /\
    zk_documents thr zk_example = Some [(1, [7; 10]); (3, [8; 9]); (4, [7]); (5, [7; 8; 11])] /\
    zk_commit normalize_id thr (zk_run normalize_id thr zk_example) 2 [KIndex 1 (SeqList [7])] = None /\
    zk_commit normalize_id thr (zk_run normalize_id thr zk_example) 2 [KIndex 6 (SeqList [11])] = None).
Proof. exact zk_example_ok. Qed.

(** With the default threshold 64 documents do get lost: while one transaction replaces the Set
    of a keyword by a TreeSet, another adds a document to the Set.  Both commit; the index
    has the document, but does not find it, and unindex_doc does not remove it. *)
Theorem C69_conversion_refuted : exists (base : list (kop Z)) d1 d2 d3 w st v1 v2 v3 v4,
  let vs := zk_run normalize_id 64 [(0%nat, base);
              (0%nat, [KIndex d1 (SeqList [w])]); (0%nat, [KIndex d2 (SeqList [w])]); (2%nat, [KIndex d3 (SeqList [w])])] in
  vs = [st; v1; v2; v3; v4] /\
  (exists kw, get (zrev st) d3 = Some kw /\ mem w kw = true) /\ k_has_doc d3 (zk_view 64 st) = true /\
  (exists s, k_search normalize_id (KWord w) OpAnd (zk_view 64 st) = Ok s /\ mem d3 s = false) /\
  exists st', zk_commit normalize_id 64 vs 0 [KUnindex d3] = Some st' /\ k_has_doc d3 (zk_view 64 st') = true.
Proof. exact zk_conversion_loses. Qed.
Print Assumptions C69_conversion_refuted.
(** So do documents indexed while another transaction calls optimize. *)
Theorem C69_optimize_refuted : exists (base : list (kop Z)) d w st v1 v2 v3,
  zk_run normalize_id 64 [(0%nat, base); (0%nat, [KOptimize]); (1%nat, [KIndex d (SeqList [w])])] = [st; v1; v2; v3] /\
  (exists kw, get (zrev st) d = Some kw /\ mem w kw = true) /\ k_has_doc d (zk_view 64 st) = true /\
  (exists s, k_search normalize_id (KWord w) OpAnd (zk_view 64 st) = Ok s /\ mem d s = false).
Proof. exact zk_optimize_loses. Qed.
Print Assumptions C69_optimize_refuted.
