(** * Property C72: sorting one document at a time (field/sorting.py)

    [sort] returns a generator.  [g_run h evs]: what the [next()]s among [evs] give when
    [sort] is called after the calls [h] on the index; [evs] are [next()]s and further
    calls on the index (M_sortgen.v).  [f_sort], of C18-C22, is the list obtained when the
    generator is exhausted at once.  [heur] stands for the float comparison of
    sorting.py:58. *)
From Verif Require Import S_sortgen M_sortgen S_field M_field L_sortgen SMap PyVal Ord.

(** sorting.py:58 with exact arithmetic: [rlen > numdocs * (rlen / 100 + 1)]. *)
Definition ex_heur (rlen numdocs : Z) : bool := numdocs * (rlen + 100) <? 100 * rlen.
Local Notation ix d v := (FIndex d (VInt v)) (only parsing).
Local Notation call o := (ECall o) (only parsing).
Definition sg_h : list (fop str) := [ix 1 30; ix 2 10; ix 3 20; ix 4 (-5); ix 5 20; ix 6 7].

(** C72: nothing is done before the first [next()]: calls made before it might as well
    have been made before [sort].  Without calls in between, the [next()]s give the
    documents of the sorted list (or its exception) and then StopIteration for ever. *)
Theorem C72_deferred : forall (T : Type) (OT : Ord T) (heur : Z -> Z -> bool) (ovl ovn : bool)
    (docids : list Z) (reverse : bool) (limit : option Z) (h calls : list (fop T)),
  (forall evs, g_run heur ovl ovn docids reverse limit h (map ECall calls ++ evs) =
               g_run heur ovl ovn docids reverse limit (h ++ calls) evs) /\
  (forall n, g_run heur ovl ovn docids reverse limit h (map ECall calls ++ repeat ENext n) =
             one_by_one (f_sort heur ovl ovn docids reverse limit (f_run (h ++ calls))) n).
Proof.
  intros T OT heur ovl ovn docids reverse limit h calls. split.
  - exact (fun evs => not_asked heur ovl ovn docids reverse limit h calls evs).
  - exact (fun n => deferred heur ovl ovn docids reverse limit h calls n).
Qed.
Print Assumptions C72_deferred.
Example C72_deferred_ex :
  g_run ex_heur false false [1; 2; 3; 9] false None sg_h [call (FUnindex 3); ENext; ENext; ENext; ENext] =
    [Yield 2; Yield 1; Stop; Stop] /\
  g_run ex_heur false false [1; 2; 3] false (Some 0) sg_h [ENext; ENext] = [Err ValueError; Stop].
Proof. split; vm_compute; reflexivity. Qed.

(** C72: once the first [next()] was made, calls about other documents do not matter,
    and from a [clear] on nothing does.  (If the generator walks over the index, no call
    may precede that [clear]: the BTrees library does not say what happens otherwise.) *)
Theorem C72_undisturbed : forall (T : Type) (OT : Ord T) (heur : Z -> Z -> bool) (ovl ovn : bool)
    (docids : list Z) (reverse : bool) (limit : option Z) (h : list (fop T)) (evs : list (event T)),
  limit_ok limit ->
  harmless docids (walks heur ovl ovn docids reverse limit h) (calls_of evs) ->
  g_run heur ovl ovn docids reverse limit h (ENext :: evs) =
  one_by_one (f_sort heur ovl ovn docids reverse limit (f_run h)) (S (nexts_of evs)).
Proof.
  intros T OT heur ovl ovn docids reverse limit h evs Hl Hh.
  pose proof (undisturbed heur ovl ovn docids reverse limit h [] evs Hl) as H. rewrite app_nil_r in H. exact (H Hh).
Qed.
Print Assumptions C72_undisturbed.
Definition sg_evs : list (event str) :=
  [call (FUnindex 6); call (ix 2 99); ENext; call FClear; call (ix 1 0); call (FUnindex 1); ENext; ENext].
Example C72_undisturbed_ex :
  harmless [1; 3; 4] (walks ex_heur false false [1; 3; 4] false None sg_h) (calls_of sg_evs) /\
  ~ walks ex_heur false false [1; 3; 4] false None sg_h /\
  g_run ex_heur false false [1; 3; 4] false None sg_h (ENext :: sg_evs) = [Yield 4; Yield 3; Yield 1; Stop].
Proof.
  assert (W : ~ walks ex_heur false false [1; 3; 4] false None sg_h)
    by (intros (_ & _ & [H|H]); [discriminate|vm_compute in H; discriminate]).
  split; [|split; [exact W|vm_compute; reflexivity]].
  exists [FUnindex 6; ix 2 99], [FClear; ix 1 0; FUnindex 1]. split; [reflexivity|split; [|split]].
  - repeat constructor; cbn; intros H; repeat (destruct H as [H|H]; [discriminate|]); exact H.
  - intros H. destruct (W H).
  - right. exists [ix 1 0; FUnindex 1]. reflexivity.
Qed.
(** A generator that walks over the index: only [clear] may come first. *)
Example C72_undisturbed_walk_ex :
  walks ex_heur false false [1; 2; 3; 4; 5; 6; 7; 8] false None sg_h /\
  g_run ex_heur false false [1; 2; 3; 4; 5; 6; 7; 8] false (Some 3) sg_h
    [ENext; call FClear; call (ix 1 0); ENext; ENext; ENext] = [Yield 4; Yield 6; Yield 2; Stop].
Proof.
  split; [|vm_compute; reflexivity]. split; [|split; [reflexivity|right; vm_compute; reflexivity]].
  intros [H|(k & H & _)]; discriminate.
Qed.

(** C72: if few of many documents are asked for, the first [next()] decides them all. *)
Theorem C72_few : forall (T : Type) (OT : Ord T) (heur : Z -> Z -> bool) (ovl ovn : bool)
    (docids : list Z) (reverse : bool) (limit : option Z) (h : list (fop T)) (evs : list (event T)),
  limit_ok limit -> few ovn docids limit ->
  g_run heur ovl ovn docids reverse limit h (ENext :: evs) =
  one_by_one (f_sort heur ovl ovn docids reverse limit (f_run h)) (S (nexts_of evs)).
Proof.
  intros T OT heur ovl ovn docids reverse limit h evs Hl Hf.
  pose proof (fixed_few heur ovl ovn docids reverse limit h [] evs Hl Hf) as H. rewrite app_nil_r in H. exact H.
Qed.
Print Assumptions C72_few.
Example C72_few_ex : few false [1; 2; 3; 4; 5; 6; 7; 8; 9] (Some 2) /\
  g_run ex_heur false false [1; 2; 3; 4; 5; 6; 7; 8; 9] false (Some 2) sg_h [ENext; call (FUnindex 6); call (ix 2 0); ENext; ENext] =
    [Yield 4; Yield 6; Stop].
Proof. split; [right; exists 2; split; [reflexivity|vm_compute; reflexivity]|vm_compute; reflexivity]. Qed.

(** C72: whatever calls are made in between, no document is yielded twice, only those asked
    for are, and never more than [limit]. *)
Theorem C72_sound : forall (T : Type) (OT : Ord T) (heur : Z -> Z -> bool) (ovl ovn : bool)
    (docids : list Z) (reverse : bool) (limit : option Z) (h : list (fop T)) (evs : list (event T)),
  limit_ok limit ->
  let ys := yielded (g_run heur ovl ovn docids reverse limit h evs) in
  NoDup ys /\ (forall d, In d ys -> In d docids) /\
  match limit with Some k => Zlen ys <= k | None => True end.
Proof. exact @sound. Qed.
Print Assumptions C72_sound.

(** C72: unless few of many are asked for, and without [clear], a document is indexed at
    the moment when it is yielded. *)
Theorem C72_present : forall (T : Type) (OT : Ord T) (heur : Z -> Z -> bool) (ovl ovn : bool)
    (docids : list Z) (reverse : bool) (limit : option Z) (h : list (fop T)) (evs : list (event T))
    (xs : list nexted) (d : Z),
  ~ few ovn docids limit -> ~ In FClear (calls_of evs) ->
  g_run heur ovl ovn docids reverse limit h (evs ++ [ENext]) = xs ++ [Yield d] ->
  exists v, get (current (h ++ calls_of evs)) d = Some v.
Proof. exact @present. Qed.
Print Assumptions C72_present.
Example C72_present_ex :
  g_run ex_heur false false [1; 2; 3; 9] true None sg_h
    [call (FUnindex 3); ENext; call (FUnindex 2); call (ix 9 50); call (ix 3 40); ENext; ENext; ENext] =
    [Yield 1; Yield 3; Yield 9; Stop] /\
  g_run ex_heur false false [1; 2; 3; 9] false None sg_h
    [ENext; call (ix 9 50); call (FUnindex 3); ENext; ENext; ENext] = [Yield 2; Yield 1; Stop; Stop].
Proof. split; vm_compute; reflexivity. Qed.

(** C72: when all documents are sorted, one that was indexed at the first [next()] and
    remained so (with whatever values) is yielded before StopIteration, unless [limit]
    documents were. *)
Theorem C72_complete : forall (T : Type) (OT : Ord T) (heur : Z -> Z -> bool) (ovl ovn : bool)
    (docids : list Z) (reverse : bool) (limit : option Z) (h : list (fop T)) (evs : list (event T)) (d : Z),
  limit_ok limit -> ~ few ovn docids limit -> ~ walks heur ovl ovn docids reverse limit h ->
  (exists r, f_sort heur ovl ovn docids reverse limit (f_run h) = Ok r) -> In d docids ->
  (forall evs1 evs2, evs = evs1 ++ evs2 -> exists v, get (current (h ++ calls_of evs1)) d = Some v) ->
  let xs := g_run heur ovl ovn docids reverse limit h (ENext :: evs) in
  In Stop xs ->
  In d (yielded xs) \/ match limit with Some k => Zlen (yielded xs) = k | None => False end.
Proof. exact @complete. Qed.
Print Assumptions C72_complete.
Example C72_complete_ex :
  let evs := [call (ix 1 0); call (FUnindex 2); ENext; call (ix 1 99); call (FUnindex 3); ENext] : list (event str) in
  (forall evs1 evs2, evs = evs1 ++ evs2 -> exists v, get (current (sg_h ++ calls_of evs1)) 1 = Some v) /\
  g_run ex_heur false false [1; 2; 3] false None sg_h (ENext :: evs) = [Yield 2; Yield 3; Yield 1].
Proof.
  split; [|vm_compute; reflexivity]. intros evs1 evs2 E.
  repeat (destruct evs1 as [|? evs1];
    [eexists; vm_compute; reflexivity|injection E as <- E]).
  destruct evs1; [eexists; vm_compute; reflexivity|discriminate].
Qed.

(** C72, what does not hold: the result is not that of the moment when [sort] was called;
    a document may be yielded although it is not indexed any more; documents may come in an
    order that their values had at no time. *)
Theorem C72_refuted :
  (exists (h calls : list (fop str)) (docids : list Z) (n : nat),
     g_run ex_heur false false docids false None h (map ECall calls ++ repeat ENext n) <>
     one_by_one (f_sort ex_heur false false docids false None (f_run h)) n) /\
  (exists (h : list (fop str)) (evs : list (event str)) (docids : list Z) (xs : list nexted) (d : Z),
     ~ In FClear (calls_of evs) /\
     g_run ex_heur false false docids false (Some 2) h (evs ++ [ENext]) = xs ++ [Yield d] /\
     get (current (h ++ calls_of evs)) d = None) /\
  (exists (h : list (fop str)) (evs : list (event str)) (docids : list Z) (a b : Z) (l1 l2 l3 : list Z),
     yielded (g_run ex_heur false false docids false None h evs) = l1 ++ a :: l2 ++ b :: l3 /\
     forall calls rest va vb, calls_of evs = calls ++ rest ->
       get (current (h ++ calls)) a = Some va -> get (current (h ++ calls)) b = Some vb -> lt vb va).
Proof.
  split; [|split].
  - exists sg_h, [FUnindex 3], [1; 2; 3], 3%nat. vm_compute. discriminate.
  - exists sg_h, [ENext; call (FUnindex 6)], [1; 2; 3; 4; 5; 6; 7; 8; 9], [Yield 4], 6. split; [|split].
    + intros [H|[]]; discriminate.
    + vm_compute; reflexivity.
    + vm_compute; reflexivity.
  - exists sg_h, [ENext; call (ix 9 100); ENext; ENext], [3; 4; 9], 9, 3, [4], [], []. split; [vm_compute; reflexivity|].
    intros calls rest va vb E Ha Hb. destruct calls as [|c calls].
    { vm_compute in Ha. discriminate. }
    injection E as <- E. destruct calls; [|discriminate]. vm_compute in Ha, Hb. injection Ha as <-. injection Hb as <-.
    vm_compute. reflexivity.
Qed.
Print Assumptions C72_refuted.
