(** * Property C73: a topic index in a ZODB (topic/index.py, topic/filter.py)

    [p_run evs]: the index after the events [evs] (calls, commits, aborts, cache evictions,
    restarts); [p_live] is what it has in memory and [p_saved] what a new connection would
    read.  [ideal evs] is what one expects of the two (S_ptopic.v). *)
From Verif Require Import S_ptopic M_ptopic S_topic M_topic L_ptopic SMap Ord.

(** In the examples an expression is a number, satisfied by the objects not below it. *)
Definition pt_eval (e _ c : Z) : evres := if e <=? c then Truthy else Falsy.
Local Notation call o := (ZCall (PCall o)) (only parsing).
Definition pt_add (i e : Z) : pevent Z Z Z := call (TAdd (filt_new true i e)).
Definition pt_ids (m : smap Z (filt Z Z)) (i : Z) : option (Z * list Z) :=
  match get m i with Some f => Some (f_expr f, selems (f_ids f)) | None => None end.

(** C73: as long as nothing is aborted, dropped from the cache or restarted, the index in
    memory is that of C30-C34. *)
Theorem C73_memory : forall (I : Type) (OI : Ord I) (E C : Type) (eval : E -> Z -> C -> evres) (evs : list (pevent I E C)),
  Forall (fun e => match e with ZCall _ | ZCommit _ => True | _ => False end) evs ->
  p_live (p_run eval evs) = fst (ideal eval evs).
Proof. exact @live_only. Qed.
Print Assumptions C73_memory.

(** C73: without [clearFilters] and [setExpression], commits save everything, and aborts and
    restarts restore what was saved, whatever buckets the filters share. *)
Theorem C73_saved : forall (I : Type) (OI : Ord I) (E C : Type) (eval : E -> Z -> C -> evres) (evs : list (pevent I E C)),
  Forall (fun e => match e with ZCall (PCall TClearFilters) | ZCall (PCall (TSetExpr _ _)) => False | _ => True end) evs ->
  p_live (p_run eval evs) = fst (ideal eval evs) /\ p_saved (p_run eval evs) = snd (ideal eval evs).
Proof. exact @plain_faithful. Qed.
Print Assumptions C73_saved.
Example C73_saved_ex :
  let st := p_run pt_eval [pt_add 1 10; call (TIndex 7 12); ZCommit empty; call (TIndex 8 15); call (TUnindex 7); pt_add 2 0;
                           ZAbort empty; call (TIndex 9 10); ZCommit empty; call TClear; ZRestart] in
  pt_ids (p_live st) 1 = Some (10, [7; 9]) /\ pt_ids (p_live st) 2 = None /\ pt_ids (p_saved st) 1 = Some (10, [7; 9]).
Proof. vm_compute. repeat split; reflexivity. Qed.

(** C73: the same holds with them, if every filter so changed is passed to [addFilter]
    again before the transaction ends (and before [clear]). *)
Theorem C73_careful : forall (I : Type) (OI : Ord I) (E C : Type) (eval : E -> Z -> C -> evres) (evs : list (pevent I E C)),
  careful eval evs ->
  p_live (p_run eval evs) = fst (ideal eval evs) /\ p_saved (p_run eval evs) = snd (ideal eval evs).
Proof. exact @faithful. Qed.
Print Assumptions C73_careful.
Definition pt_careful : list (pevent Z Z Z) :=
  [pt_add 1 10; call (TIndex 7 12); ZCommit empty; call TClearFilters; call (TSetExpr 1 20); call (TIndex 8 25);
   ZCall (PAgain 1); ZCommit empty; ZRestart].
Example C73_careful_ex : careful pt_eval pt_careful /\
  pt_ids (p_live (p_run pt_eval pt_careful)) 1 = Some (20, [8]).
Proof.
  split; [|vm_compute; reflexivity]. intros evs1 e evs2 E Hb i Hi.
  assert (Hk : forall l, existsb (fun j => negb (j =? 1)) l = false -> In i l -> i = 1).
  { intros l Hl Hin. destruct (Z.eqb_spec i 1) as [->|Hn]; [reflexivity|].
    assert (existsb (fun j => negb (j =? 1)) l = true); [|congruence].
    apply existsb_exists. exists i. split; [exact Hin|]. destruct (Z.eqb_spec i 1); [contradiction|reflexivity]. }
  assert (Hi' : i = 1 /\ (boundary e -> unsaved evs1 1 = false)).
  { apply mem_get in Hi as [f Hf].
    assert (Hin : In i (keys (fst (ideal pt_eval evs1)))) by (apply keys_In; eauto). clear f Hf Hb.
    unfold pt_careful in E.
    repeat (destruct evs1 as [|? evs1];
      [injection E as <- _; split; [revert Hin; apply Hk; vm_compute; reflexivity|vm_compute; intros Hx; (reflexivity || destruct Hx)]
      |injection E as <- E]).
    destruct evs1; discriminate E. }
  destruct Hi' as [-> Hu]. exact (Hu Hb).
Qed.

(** C73: but if no key of the BTree of filters is assigned or deleted, [clearFilters] and
    everything from it on is lost, however often it is committed, when each filter has a
    bucket of its own: a new connection sees the index as it was before. *)
Theorem C73_lost : forall (I : Type) (OI : Ord I) (E C : Type) (eval : E -> Z -> C -> evres)
    (evs : list (pevent I E C)) (x : sset I) (evs' : list (pevent I E C)),
  Forall quiet evs' ->
  p_saved (p_run eval (evs ++ ZCommit x :: ZCall (PCall TClearFilters) :: evs')) = p_saved (p_run eval (evs ++ [ZCommit x])).
Proof. exact @lost. Qed.
Print Assumptions C73_lost.
Example C73_lost_ex :
  let evs := [pt_add 1 10; call (TIndex 7 12)] in
  let evs' := [call (TIndex 8 25); ZCommit empty; call (TUnindex 7); call (TSetExpr 1 0); ZCommit empty] in
  let st := p_run pt_eval (evs ++ ZCommit empty :: call TClearFilters :: evs') in
  Forall quiet evs' /\ pt_ids (p_live st) 1 = Some (0, [8]) /\ pt_ids (p_saved st) 1 = Some (10, [7]).
Proof. split; [repeat constructor|vm_compute; split; reflexivity]. Qed.

(** C73: so a committed index may answer differently after a restart, and an abort may leave
    changes in place. *)
Theorem C73_refuted :
  (exists (evs : list (pevent Z Z Z)) (i : Z),
     pt_ids (p_live (p_run pt_eval (evs ++ [ZCommit empty; ZRestart]))) i <> pt_ids (fst (ideal pt_eval evs)) i) /\
  (exists (evs : list (pevent Z Z Z)) (i : Z),
     pt_ids (p_live (p_run pt_eval (evs ++ [ZAbort empty]))) i <> pt_ids (snd (ideal pt_eval evs)) i).
Proof.
  split.
  - exists [pt_add 1 10; call (TIndex 7 12); ZCommit empty; call TClearFilters; call (TIndex 8 25)], 1. vm_compute. discriminate.
  - exists [pt_add 1 10; call (TIndex 7 12); ZCommit empty; call TClearFilters; call (TIndex 8 25)], 1. vm_compute. discriminate.
Qed.
Print Assumptions C73_refuted.
