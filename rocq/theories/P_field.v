(** * Properties C14-C22: field index (field/index.py, field/sorting.py)

    [current h] is the docid -> value mapping after the calls [h] (S_field.v).  [T] is
    any totally ordered type of values besides None and integers. *)
From Verif Require Import S_field M_field L_field L_fieldsort SMap PyVal Ord.

(** A concrete history used in the examples; objects are strings here. *)
Local Notation ix d v := (FIndex d v) (only parsing).
Definition ex_hist : list (fop str) :=
  [ix 1 (VInt 30); ix 2 (VInt 10); ix 3 (VInt 20); ix 1 (VInt 10); ix 4 (VInt 7); FUnindex 4; ix 5 (VInt 20)].

(** C14: with mutually orderable values no call raises and the mapping is what the
    last call about each document says. *)
Theorem C14_last_call_counts : forall (T : Type) (OT : Ord T) (h : list (fop T)),
  mutually_orderable h ->
  (forall d, get (current h) d = last_said d (rev h)) /\
  (forall h1 o h2, h = h1 ++ o :: h2 -> snd (f_step (f_run h1) o) = Ok tt).
Proof. exact @current_last_said. Qed.
Print Assumptions C14_last_call_counts.
Example C14_last_call_counts_ex :
  mutually_orderable ex_hist /\ elts (current ex_hist) = [(1, VInt 10); (2, VInt 10); (3, VInt 20); (5, VInt 20)].
Proof.
  split; [|vm_compute; reflexivity].
  intros v w Hv Hw. cbn in Hv, Hw.
  repeat (destruct Hv as [<-|Hv]); try destruct Hv; repeat (destruct Hw as [<-|Hw]); try destruct Hw; reflexivity.
Qed.

(** C14: exact range search. *)
Theorem C14_range_search : forall (T : Type) (OT : Ord T) (h : list (fop T)) (lo hi : pyval T),
  orderable_in lo (current h) -> orderable_in hi (current h) ->
  exists s, f_apply (QTuple [lo; hi]) (f_run h) = Ok s /\
    forall d, mem d s = true <-> exists v, get (current h) d = Some v /\ in_range lo hi v.
Proof. exact @f_apply_exact. Qed.
Print Assumptions C14_range_search.
Example C14_range_search_ex :
  (do s <- f_apply (QTuple [VInt 10; VInt 15]) (f_run ex_hist); Ok (selems s)) = Ok [1; 2].
Proof. vm_compute; reflexivity. Qed.

(** C14: what happens with bounds that cannot be compared with the values. *)
Theorem C14_bad_bounds : forall (T : Type) (OT : Ord T) (h : list (fop T)) (lo hi : pyval T),
  (~ orderable_in lo (current h) -> f_apply (QTuple [lo; hi]) (f_run h) = Raise TypeError) /\
  (~ orderable_in hi (current h) -> f_apply (QTuple [lo; hi]) (f_run h) = Raise TypeError \/
     (f_apply (QTuple [lo; hi]) (f_run h) = Ok empty /\
      forall d v, get (current h) d = Some v -> ~ in_range lo VNone v)).
Proof. exact @f_apply_bad. Qed.
Print Assumptions C14_bad_bounds.
Example C14_bad_bounds_ex :
  f_apply (QTuple [VObj [97]; VInt 15]) (f_run ex_hist) = Raise TypeError.
Proof. vm_compute; reflexivity. Qed.

(** C14: anything but a pair raises TypeError. *)
Theorem C14_not_a_pair : forall (T : Type) (OT : Ord T) (st : fstate T) (q : fquery T),
  (forall lo hi, q <> QTuple [lo; hi]) -> f_apply q st = Raise TypeError.
Proof. exact @f_apply_not_pair. Qed.
Print Assumptions C14_not_a_pair.

(** C15: exact-value search works for every value except None. *)
Theorem C15_exact_value : forall (T : Type) (OT : Ord T) (h : list (fop T)) (v : pyval T),
  v <> VNone -> orderable_in v (current h) ->
  exists s, f_apply (QTuple [v; v]) (f_run h) = Ok s /\
    forall d, mem d s = true <-> get (current h) d = Some v.
Proof. exact @f_apply_value. Qed.
Print Assumptions C15_exact_value.
Example C15_exact_value_ex :
  (do s <- f_apply (QTuple [VInt 20; VInt 20]) (f_run ex_hist); Ok (selems s)) = Ok [3; 5].
Proof. vm_compute; reflexivity. Qed.
(** C15: for None the search returns every document. *)
Theorem C15_none_returns_all : forall (T : Type) (OT : Ord T) (h : list (fop T)),
  exists s, f_apply (QTuple [VNone; VNone]) (f_run h) = Ok s /\
    forall d, mem d s = true <-> exists v, get (current h) d = Some v.
Proof. exact @f_apply_none. Qed.
Print Assumptions C15_none_returns_all.
Definition ex_none : list (fop str) := [ix 1 VNone; ix 2 (VInt 5)].
Lemma exact_value_none :
  get (current ex_none) 2 <> Some VNone /\
  (do s <- f_apply (QTuple [VNone; VNone]) (f_run ex_none); Ok (mem 2 s)) = Ok true.
Proof. split; [discriminate|vm_compute; reflexivity]. Qed.
Theorem C15_exact_value_refuted : exists (h : list (fop str)) (v : pyval str) d,
  orderable_in v (current h) /\ (exists d', get (current h) d' = Some v) /\
  get (current h) d <> Some v /\
  (do s <- f_apply (QTuple [v; v]) (f_run h); Ok (mem d s)) = Ok true.
Proof.
  exact (ex_intro _ ex_none (ex_intro _ VNone (ex_intro _ 2
    (conj (fun d w _ => eq_refl) (conj (ex_intro _ 1 eq_refl) exact_value_none))))).
Qed.
Print Assumptions C15_exact_value_refuted.

(** C16: statistics. *)
Theorem C16_statistics : forall (T : Type) (OT : Ord T) (h : list (fop T)),
  f_documentCount (f_run h) = Zlen (keys (current h)) /\
  exists values, NoDup values /\ (forall v, In v values <-> exists d, get (current h) d = Some v) /\
    f_wordCount (f_run h) = Zlen values.
Proof. exact @f_stats. Qed.
Print Assumptions C16_statistics.
Example C16_statistics_ex : f_documentCount (f_run ex_hist) = 4 /\ f_wordCount (f_run ex_hist) = 2.
Proof. vm_compute; auto. Qed.

(** C17: the state (hence every observation) depends on the current mapping only. *)
Theorem C17_state_of_mapping : forall (T : Type) (OT : Ord T) (h1 h2 : list (fop T)),
  current h1 = current h2 -> f_run h1 = f_run h2.
Proof. exact @f_state_of_current. Qed.
Print Assumptions C17_state_of_mapping.
Theorem C17_unindex : forall (T : Type) (OT : Ord T) (h : list (fop T)) (d : Z),
  snd (f_step (f_run h) (FUnindex d)) = Ok tt /\
  current (h ++ [FUnindex d]) = del d (current h) /\
  (get (current h) d = None -> f_run (h ++ [FUnindex d]) = f_run h).
Proof. exact @f_unindex_law. Qed.
Print Assumptions C17_unindex.
Theorem C17_index : forall (T : Type) (OT : Ord T) (h : list (fop T)) (d : Z) (v : pyval T),
  (orderable_in v (current h) ->
     snd (f_step (f_run h) (FIndex d v)) = Ok tt /\ current (h ++ [FIndex d v]) = put d v (current h)) /\
  (~ orderable_in v (current h) ->
     f_step (f_run h) (FIndex d v) = (f_run h, Raise TypeError) /\ current (h ++ [FIndex d v]) = current h) /\
  (get (current h) d = Some v -> f_run (h ++ [FIndex d v]) = f_run h).
Proof. exact @f_index_law. Qed.
Print Assumptions C17_index.
(** C17: the same as seen by range searches.  Indexing or unindexing [d] leaves every
    answer about other documents as it was; after indexing [d] is found exactly by the
    ranges that contain its new value, after unindexing by none. *)
Theorem C17_index_observed : forall (T : Type) (OT : Ord T) (h : list (fop T)) (d : Z) (v lo hi : pyval T),
  orderable_in v (current h) -> key_ok lo v = true -> key_ok hi v = true ->
  orderable_in lo (current h) -> orderable_in hi (current h) ->
  let after := f_run (h ++ [FIndex d v]) in
  (forall d', d' <> d -> (in_answer lo hi after d' <-> in_answer lo hi (f_run h) d')) /\
  (in_answer lo hi after d <-> in_range lo hi v).
Proof. exact @f_index_observed. Qed.
Print Assumptions C17_index_observed.
Theorem C17_unindex_observed : forall (T : Type) (OT : Ord T) (h : list (fop T)) (d : Z) (lo hi : pyval T),
  orderable_in lo (current h) -> orderable_in hi (current h) ->
  let after := f_run (h ++ [FUnindex d]) in
  (forall d', d' <> d -> (in_answer lo hi after d' <-> in_answer lo hi (f_run h) d')) /\
  ~ in_answer lo hi after d.
Proof. exact @f_unindex_observed. Qed.
Print Assumptions C17_unindex_observed.
Example C17_observed_ex :
  (do s <- f_apply (QTuple [VInt 5; VInt 15]) (f_run ex_hist); Ok (selems s)) = Ok [1; 2] /\
  (do s <- f_apply (QTuple [VInt 5; VInt 15]) (f_run (ex_hist ++ [ix 2 (VInt 16)])); Ok (selems s)) = Ok [1] /\
  (do s <- f_apply (QTuple [VInt 5; VInt 15]) (f_run (ex_hist ++ [FUnindex 1])); Ok (selems s)) = Ok [2].
Proof. vm_compute; auto. Qed.
Example C17_index_ex :
  f_run (ex_hist ++ [ix 3 (VObj [98])]) = f_run ex_hist /\
  f_run ex_hist = f_run [ix 5 (VInt 20); ix 2 (VInt 10); ix 3 (VInt 20); ix 1 (VInt 10)].
Proof.
  split.
  - apply f_state_of_current, elts_inj. vm_compute; reflexivity.
  - apply f_state_of_current, elts_inj. vm_compute; reflexivity.
Qed.

(** C18: the list sorted by (value, docid) exists and is unique ... *)
Theorem C18_sorted_list_exists : forall (T : Type) (OT : Ord T) (m : smap Z (pyval T)) (docids : list Z),
  exists l, sorted_list asc_order m docids l /\
    forall l', sorted_list asc_order m docids l' -> l' = l.
Proof.
  exact (fun T OT m docids => ex_intro _ _ (conj (asc_sorted m docids)
    (fun l' H => sorted_list_unique _ m docids _ _ (asc_order_asym m) H (asc_sorted m docids)))).
Qed.
Print Assumptions C18_sorted_list_exists.
(** ... and is what sort returns, truncated to the limit, for every strategy
    ([ovl], [ovn]: overrides, [heur]: the lazy heuristic), unless values and
    placeholders cannot be compared. *)
Theorem C18_sort_ascending : forall (T : Type) (OT : Ord T) (heur : Z -> Z -> bool) (ovl ovn : bool)
    (docids : list Z) (limit : option Z) (h : list (fop T)) (l : list Z),
  limit_ok limit -> sorted_list asc_order (current h) docids l ->
  f_sort heur ovl ovn docids false limit (f_run h) = Ok (truncate limit l) \/
  (f_sort heur ovl ovn docids false limit (f_run h) = Raise TypeError /\
   full_type_error (current h) docids).
Proof. exact @f_sort_asc. Qed.
Print Assumptions C18_sort_ascending.
Example C18_sort_ascending_ex :
  f_sort (fun _ _ => false) false false [5; 9; 3; 2; 1; 1] false None (f_run ex_hist) = Ok [1; 2; 3; 5] /\
  f_sort (fun _ _ => false) false true [5; 9; 3; 2; 1; 1] false (Some 3) (f_run ex_hist) = Ok [1; 2; 3] /\
  f_sort (fun _ _ => false) true false [5; 9; 3; 2; 1; 1] false (Some 3) (f_run ex_hist) = Ok [1; 2; 3].
Proof. vm_compute; auto. Qed.
Theorem C18_limited_is_prefix : forall (T : Type) (OT : Ord T) (heur : Z -> Z -> bool) (ovl ovn : bool)
    (docids : list Z) (limit : option Z) (h : list (fop T)) (r full : list Z),
  limit_ok limit ->
  f_sort heur ovl ovn docids false None (f_run h) = Ok full ->
  f_sort heur ovl ovn docids false limit (f_run h) = Ok r ->
  r = truncate limit full.
Proof. exact @f_sort_asc_prefix. Qed.
Print Assumptions C18_limited_is_prefix.

(** C19: descending sorts, every strategy. *)
Theorem C19_sort_descending : forall (T : Type) (OT : Ord T) (heur : Z -> Z -> bool) (ovl ovn : bool)
    (docids : list Z) (limit : option Z) (h : list (fop T)) (r : list Z),
  limit_ok limit ->
  let m := current h in
  f_sort heur ovl ovn docids true limit (f_run h) = Ok r ->
  StronglySorted (value_desc m) r /\ NoDup r /\
  (forall d, In d r -> In d docids /\ exists v, get m d = Some v) /\
  (exists all, indexed_among m docids all /\
     Zlen r = match limit with Some k => Z.min k (Zlen all) | None => Zlen all end) /\
  (forall d d', In d r -> In d' docids -> ~ In d' r -> (exists v, get m d' = Some v) -> value_desc m d d').
Proof. exact @f_sort_desc_props. Qed.
Print Assumptions C19_sort_descending.
Example C19_sort_descending_ex :
  f_sort (fun _ _ => false) false false [5; 9; 3; 2; 1; 1] true (Some 3) (f_run ex_hist) = Ok [3; 5; 1] /\
  f_sort (fun _ _ => false) false true [5; 9; 3; 2; 1; 1] true (Some 3) (f_run ex_hist) = Ok [5; 3; 2].
Proof. vm_compute; auto. Qed.

(** C20: a limited descending sort is a prefix of the unlimited one when the n-best
    strategy is not chosen (4 * limit >= number of distinct docids) or when the
    documents have distinct values ... *)
Theorem C20_descending_prefix : forall (T : Type) (OT : Ord T) (heur : Z -> Z -> bool) (ovl : bool)
    (docids : list Z) (limit : option Z) (h : list (fop T)) (r full : list Z),
  limit_ok limit ->
  (match limit with Some k => k * 4 <? Zsize (set_of_list docids) | None => false end = false
   \/ distinct_values (current h) docids) ->
  f_sort heur ovl false docids true None (f_run h) = Ok full ->
  f_sort heur ovl false docids true limit (f_run h) = Ok r ->
  r = truncate limit full.
Proof. exact @f_sort_desc_prefix. Qed.
Print Assumptions C20_descending_prefix.
(** ... and not in general. *)
Definition ex_ties : list (fop str) := [ix 1 (VInt 7); ix 2 (VInt 7); ix 3 (VInt 7); ix 4 (VInt 7); ix 5 (VInt 7)].
Theorem C20_descending_prefix_refuted : exists (h : list (fop str)) docids k full r,
  f_sort (fun _ _ => false) false false docids true None (f_run h) = Ok full /\
  f_sort (fun _ _ => false) false false docids true (Some k) (f_run h) = Ok r /\
  r <> truncate (Some k) full.
Proof.
  exists ex_ties, [1; 2; 3; 4; 5], 1, [1; 2; 3; 4; 5], [5].
  split; [vm_compute; reflexivity|split; [vm_compute; reflexivity|discriminate]].
Qed.
Print Assumptions C20_descending_prefix_refuted.

(** C21: documents that are not indexed are skipped, and nothing is raised unless a
    refused comparison is possible ... *)
Theorem C21_skips_unindexed : forall (T : Type) (OT : Ord T) (heur : Z -> Z -> bool) (ovl ovn : bool)
    (docids : list Z) (reverse : bool) (limit : option Z) (h : list (fop T)),
  limit_ok limit -> ~ full_type_error (current h) docids ->
  (reverse = true -> limit = None -> ovn = false) ->
  exists r, f_sort heur ovl ovn docids reverse limit (f_run h) = Ok r /\
    forall d, In d r -> In d docids /\ exists v, get (current h) d = Some v.
Proof. exact @sort_total. Qed.
Print Assumptions C21_skips_unindexed.
(** ... and the exact conditions for TypeError are: *)
Theorem C21_type_errors : forall (T : Type) (OT : Ord T) (heur : Z -> Z -> bool) (ovl ovn : bool)
    (docids : list Z) (reverse : bool) (limit : option Z) (h : list (fop T)),
  limit_ok limit ->
  let m := current h in
  let distinct := Zsize (set_of_list docids) in
  let nbest := ovn || match limit with Some k => k * 4 <? distinct | None => false end in
  let lazy := (ovl || heur distinct (Zlen (keys m))) && negb reverse in
  f_sort heur ovl ovn docids reverse limit (f_run h) = Raise TypeError <->
    m <> empty /\ docids <> [] /\
    if nbest then nbest_type_error m docids \/ (reverse = true /\ limit = None)
    else if lazy then False else full_type_error m docids.
Proof. exact @sort_type_error_iff. Qed.
Print Assumptions C21_type_errors.
(** An index of strings fails to sort when a docid is not indexed; None values
    accepted by the index cannot be sorted. *)
Theorem C21_skips_unindexed_refuted :
  (exists (h : list (fop str)) docids, mutually_orderable h /\
     f_sort (fun _ _ => false) false false docids false None (f_run h) = Raise TypeError /\
     (forall d v, get (current h) d = Some v -> v <> VNone)) /\
  (exists (h : list (fop str)) docids, mutually_orderable h /\
     f_sort (fun _ _ => false) false false docids false None (f_run h) = Raise TypeError /\
     (forall d, In d docids -> exists v, get (current h) d = Some v)).
Proof.
  split.
  - exists [ix 1 (VObj [97])], [1; 2]. splits.
    + intros v w [<-|[]] [<-|[]]; reflexivity.
    + vm_compute; reflexivity.
    + intros d v H. apply get_In in H. destruct H as [[= <- <-]|[]]. discriminate.
  - exists [ix 1 VNone; ix 2 VNone], [1; 2]. splits.
    + intros v w [<-|[<-|[]]] _; reflexivity.
    + vm_compute; reflexivity.
    + intros d [<-|[<-|[]]]; eexists; vm_compute; reflexivity.
Qed.
Print Assumptions C21_skips_unindexed_refuted.

(** C22: limit validation. *)
Theorem C22_limit : forall (T : Type) (OT : Ord T) (heur : Z -> Z -> bool) (ovl ovn : bool)
    (docids : list Z) (reverse : bool) (limit : option Z) (st : fstate T),
  (match limit with Some k => k < 1 | None => False end ->
     f_sort heur ovl ovn docids reverse limit st = Raise ValueError) /\
  (limit_ok limit -> forall h, st = f_run h ->
     f_sort heur ovl ovn docids reverse limit st <> Raise ValueError).
Proof. exact @sort_outcomes. Qed.
Print Assumptions C22_limit.
Example C22_limit_ex : f_sort (fun _ _ => false) false false [1] false (Some 0) (f_run ex_hist) = Raise ValueError.
Proof. vm_compute; reflexivity. Qed.
