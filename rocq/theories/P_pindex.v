(** * Property C85: field and keyword indexes in a ZODB (field/index.py, keyword/index.py)

    [pf_run evs], [pk_run normalize evs]: an index saved when new, after the events [evs]
    (calls, commits, aborts, cache evictions, restarts), and what its calls returned or
    raised; [pf_live] ([pk_live]) is the index in memory and [pf_saved] ([pk_saved]) what a
    new connection would read.  [calls_in_force evs] are the calls not undone by an abort or
    a restart, [calls_committed evs] those before the last commit (S_pindex.v), and [f_run h]
    ([k_run normalize h]) is an index that was in memory all the time and to which the calls
    [h] were made (M_field.v, M_keyword.v). *)
From Verif Require Import S_pindex M_pindex M_field M_keyword L_pindex SMap PyVal Ord.

(** A set that is changed, emptied, given up and made again; [clear] undone; keys that share
    a bucket with changed ones. *)
Definition pf_keys (vs : list Z) (ds : list Z) : ikeys (pyval Z) := mkIK (set_of_list (map VInt vs)) (set_of_list ds) (set_of_list ds).
Definition pf_evs : list (ievent (pyval Z) (fop Z)) :=
  [ICall (FIndex 1 (VInt 10)); ICall (FIndex 2 (VInt 10)); ICall (FIndex 3 (VInt 20)); ICommit (pf_keys [] []);
   ICall (FUnindex 3); IEvict (pf_keys [10; 20] [1; 2; 3]); ICall (FIndex 2 (VInt 30)); ICall FClear; ICall (FIndex 7 (VInt 10));
   IAbort (pf_keys [10; 30] [0; 1; 7]); ICall (FUnindex 3); ICall (FIndex 3 VNone); ICall (FIndex 4 (VInt 20));
   ICommit (pf_keys [20] [2]); ICall (FIndex 9 (VInt 5)); IRestart; IEvict (pf_keys [10; 20; 30] [0; 1; 2; 3]);
   ICall (FIndex 2 (VInt 20)); ICall (FUnindex 1)].
Definition pf_show (st : fstate Z) : list (pyval Z * list Z) * list (Z * pyval Z) * Z :=
  (map (fun p => (fst p, keys (snd p))) (elts (fwd st)), elts (rev_ix st), num_docs st).

(** C85: whatever is committed, aborted, dropped from the cache or restarted when, the index
    in memory is that of the calls in force, and a new connection reads that of the committed
    calls. *)
Theorem C85_field : forall (T : Type) (OT : Ord T) (evs : list (ievent (pyval T) (fop T))),
  pf_live (fst (pf_run evs)) = f_run (calls_in_force evs) /\
  pf_saved (fst (pf_run evs)) = f_run (calls_committed evs).
Proof. exact @pf_run_ok. Qed.
Print Assumptions C85_field.
Example C85_field_ex :
  pf_show (pf_live (fst (pf_run pf_evs))) = ([(VNone, [3]); (VInt 20, [2; 4])], [(2, VInt 20); (3, VNone); (4, VInt 20)], 3) /\
  pf_show (pf_saved (fst (pf_run pf_evs))) =
    ([(VNone, [3]); (VInt 10, [1; 2]); (VInt 20, [4])], [(1, VInt 10); (2, VInt 10); (3, VNone); (4, VInt 20)], 4).
Proof. vm_compute. split; reflexivity. Qed.

(** Every call returns or raises what it would after the calls in force when it is made. *)
Theorem C85_field_outcomes : forall (T : Type) (OT : Ord T) (evs : list (ievent (pyval T) (fop T))),
  snd (pf_run evs) = outcomes_from (f_step (T := T)) f_clear [] evs.
Proof. exact @pf_outcomes_ok. Qed.
Print Assumptions C85_field_outcomes.
Example C85_field_outcomes_ex :
  snd (pf_run [ICall (FIndex 1 (VInt 10)); ICall (FIndex 2 (VObj 3)); IAbort (pf_keys [] []); ICall (FIndex 1 (VInt 10)); IRestart]) =
    [Ok tt; Raise TypeError; Ok tt].
Proof. reflexivity. Qed.

(** A Set that becomes a TreeSet, and back with [optimize]; an aborted [tree_threshold]. *)
Definition pk_keys (ws : list Z) (ds : list Z) : ikeys Z := mkIK (set_of_list ws) (set_of_list ds) (set_of_list ds).
Definition pk_doc (d : Z) (l : list Z) : ievent Z (kop Z) := ICall (KIndex d (SeqList l)).
Definition pk_evs : list (ievent Z (kop Z)) :=
  [ICall (KThreshold 2); pk_doc 1 [10; 20]; ICommit (pk_keys [] []); pk_doc 2 [10]; ICommit (pk_keys [20] [0]);
   ICall (KThreshold 9); ICall KOptimize; pk_doc 3 [20; 30]; IEvict (pk_keys [10; 20; 30] [0; 1; 2; 3; 4]);
   IAbort (pk_keys [10] [0; 1]); pk_doc 1 [20; 40]; ICall KClear; pk_doc 5 [10]; IRestart;
   ICall (KUnindex 2); ICall (KThreshold 3); ICall KOptimize; pk_doc 3 [20]; ICommit (pk_keys [] []); pk_doc 1 []; pk_doc 4 [20; 10]].
Definition pk_show (st : kstate Z) : list (Z * (bool * list Z)) * list (Z * list Z) * Z * Z :=
  (map (fun p => (fst p, (fst (snd p), keys (snd (snd p))))) (elts (kfwd st)), map (fun p => (fst p, keys (snd p))) (elts (krev st)), knum st, threshold st).

Theorem C85_keyword : forall (W : Type) (OW : Ord W) (normalize : list W -> list W) (evs : list (ievent W (kop W))),
  pk_live (fst (pk_run normalize evs)) = k_run normalize (calls_in_force evs) /\
  pk_saved (fst (pk_run normalize evs)) = k_run normalize (calls_committed evs).
Proof. exact @pk_run_ok. Qed.
Print Assumptions C85_keyword.
Example C85_keyword_ex :
  pk_show (pk_live (fst (pk_run normalize_id (firstn 5 pk_evs)))) = ([(10, (true, [1; 2])); (20, (false, [1]))], [(1, [10; 20]); (2, [10])], 2, 2) /\
  pk_show (pk_live (fst (pk_run normalize_id pk_evs))) = ([(10, (false, [4])); (20, (false, [3; 4]))], [(3, [20]); (4, [10; 20])], 2, 3) /\
  pk_show (pk_saved (fst (pk_run normalize_id pk_evs))) = ([(10, (false, [1])); (20, (false, [1; 3]))], [(1, [10; 20]); (3, [20])], 2, 3).
Proof. vm_compute. repeat split; reflexivity. Qed.

Theorem C85_keyword_outcomes : forall (W : Type) (OW : Ord W) (normalize : list W -> list W) (evs : list (ievent W (kop W))),
  snd (pk_run normalize evs) = outcomes_from (k_step normalize) k_new [] evs.
Proof. exact @pk_outcomes_ok. Qed.
Print Assumptions C85_keyword_outcomes.
Example C85_keyword_outcomes_ex :
  snd (pk_run normalize_id [pk_doc 1 [10]; ICall (KIndex 2 SeqStr); IAbort (pk_keys [] []); ICall (KUnindex 1)]) = [Ok tt; Raise TypeError; Ok tt].
Proof. reflexivity. Qed.
