(** * Property C88: a range query on a field index, sorted (field/index.py, field/sorting.py)

    [current h] is the docid -> value mapping after the calls [h] (S_field.v);
    [range_sorted lo hi m l] and [within lo hi m d] say that [l] are the documents with a
    value in the range by (value, docid), and that [d] is one (S_rsort.v).  [docids] is the
    answer of [apply] in any order, as a set or a list, with or without repetitions.  [heur],
    [ovl] and [ovn] choose the strategy of [sort]. *)
From Verif Require Import S_rsort S_field M_field L_rsort SMap PyVal Ord.

Definition rs_hist : list (fop str) :=
  [FIndex 1 (VObj [99]); FIndex 2 (VObj [97]); FIndex 3 (VObj [98]); FIndex 4 (VObj [97]); FIndex 5 (VObj [100]);
   FIndex 1 (VObj [98]); FUnindex 6].
Lemma rs_hist_strings : forall d v, get (current rs_hist) d = Some v -> exists t, v = VObj t.
Proof.
  intros d v H. apply get_In in H. vm_compute in H. repeat (destruct H as [H|H]; [injection H as <- <-; eauto|]). destruct H.
Qed.

(** C88: the answer of a range query can always be sorted if no document has the value None;
    sorting gives exactly the documents in the range, the smallest values first, cut off
    after [limit]. *)
Theorem C88_ascending : forall (T : Type) (OT : Ord T) (heur : Z -> Z -> bool) (ovl ovn : bool)
    (h : list (fop T)) (lo hi : pyval T) (limit : option Z),
  no_none (current h) -> orderable_in lo (current h) -> orderable_in hi (current h) -> limit_ok limit ->
  exists s l, f_apply (QTuple [lo; hi]) (f_run h) = Ok s /\ range_sorted lo hi (current h) l /\
    (forall l', range_sorted lo hi (current h) l' -> l' = l) /\
    forall docids, (forall d, In d docids <-> mem d s = true) ->
      f_sort heur ovl ovn docids false limit (f_run h) = Ok (truncate limit l).
Proof. exact @range_then_sort. Qed.
Print Assumptions C88_ascending.

(** C88: the same in descending order of values, where the order of equal values is left
    open: no document in the range that is cut off has a greater value than one returned. *)
Theorem C88_descending : forall (T : Type) (OT : Ord T) (heur : Z -> Z -> bool) (ovl ovn : bool)
    (h : list (fop T)) (lo hi : pyval T) (limit : option Z),
  no_none (current h) -> orderable_in lo (current h) -> orderable_in hi (current h) -> limit_ok limit ->
  (limit = None -> ovn = false) ->
  exists s, f_apply (QTuple [lo; hi]) (f_run h) = Ok s /\
    forall docids, (forall d, In d docids <-> mem d s = true) ->
    exists r, f_sort heur ovl ovn docids true limit (f_run h) = Ok r /\
      StronglySorted (value_desc (current h)) r /\ NoDup r /\
      (forall d, In d r -> within lo hi (current h) d) /\
      Zlen r = match limit with Some k => Z.min k (Zsize s) | None => Zsize s end /\
      (forall d d', In d r -> within lo hi (current h) d' -> ~ In d' r -> value_desc (current h) d d').
Proof. exact @range_then_sort_desc. Qed.
Print Assumptions C88_descending.
Example C88_ex :
  no_none (current rs_hist) /\ orderable_in (VObj [97]) (current rs_hist) /\ orderable_in (VObj [98]) (current rs_hist) /\
  (do s <- f_apply (QTuple [VObj [97]; VObj [98]]) (f_run rs_hist);
   do a <- f_sort (fun _ _ => false) false false (keys s) false (Some 3) (f_run rs_hist);
   do b <- f_sort (fun _ _ => true) false false (keys s) true (Some 3) (f_run rs_hist); Ok (keys s, a, b)) =
  Ok ([1; 2; 3; 4], [2; 4; 1], [1; 3; 2]).
Proof.
  splits.
  - intros d H. destruct (rs_hist_strings d _ H) as [t E]. discriminate.
  - intros d w H. destruct (rs_hist_strings d _ H) as [t ->]. reflexivity.
  - intros d w H. destruct (rs_hist_strings d _ H) as [t ->]. reflexivity.
  - vm_compute. reflexivity.
Qed.
(** Without that assumption it may raise: an index of one value, None, given to two documents. *)
Theorem C88_none_refuted : exists (h : list (fop str)) s,
  f_apply (QTuple [VNone; VNone]) (f_run h) = Ok s /\ keys s = [1; 2] /\
  f_sort (fun _ _ => false) false false (keys s) false None (f_run h) = Raise TypeError.
Proof. exists [FIndex 1 VNone; FIndex 2 VNone]. eexists. split; [|split]; vm_compute; reflexivity. Qed.
Print Assumptions C88_none_refuted.
