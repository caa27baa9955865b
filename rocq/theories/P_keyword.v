(** * Properties C23-C29, C34: keyword index (keyword/index.py)

    [keywords normalize h] is the docid -> keyword set mapping after the calls [h];
    [normal_history] excludes a normalize that drops every keyword of a non-empty
    sequence (C28); it holds for both classes of the package (C27, C23_default). *)
From Verif Require Import S_keyword M_keyword L_keyword M_kwheap L_kwheap SMap Ord.

(** Keywords are integers in the examples. *)
Definition ex_kw : list (kop Z) :=
  [KIndex 1 (SeqList [7; 8]); KIndex 2 (SeqList [8; 9]); KIndex 3 (SeqList [9]); KIndex 1 (SeqList [8; 10; 8]);
   KThreshold 2; KOptimize; KIndex 4 (SeqList [7]); KIndex 4 (SeqList []); KIndex 5 SeqStr].

(** C23: the mapping used below says what the last call about a document said. *)
Theorem C23_last_call_counts : forall (W : Type) (OW : Ord W) (normalize : list W -> list W) (h : list (kop W)) d,
  get (keywords normalize h) d = kw_last normalize d (rev h).
Proof. exact @keywords_last. Qed.
Print Assumptions C23_last_call_counts.
Example C23_last_call_counts_ex :
  map (fun p => (fst p, selems (snd p))) (elts (keywords normalize_id ex_kw)) = [(1, [8; 10]); (2, [8; 9]); (3, [9])].
Proof. vm_compute; reflexivity. Qed.

(** C23: 'and' searches. *)
Theorem C23_and_search : forall (W : Type) (OW : Ord W) normalize (h : list (kop W)) (q : kquery W),
  normal_history normalize h ->
  exists s, k_search normalize q OpAnd (k_run normalize h) = Ok s /\
    forall d, mem d s = true <->
      asked normalize q <> [] /\
      exists kw, get (keywords normalize h) d = Some kw /\ has_all kw (asked normalize q).
Proof. exact @k_search_and. Qed.
Print Assumptions C23_and_search.
Example C23_and_search_ex :
  (do s <- k_search normalize_id (KWords [8; 9]) OpAnd (k_run normalize_id ex_kw); Ok (selems s)) = Ok [2].
Proof. vm_compute; reflexivity. Qed.
Example normal_history_ex : normal_history normalize_id ex_kw.
Proof. exact (id_normal ex_kw). Qed.

(** C23: 'or' searches. *)
Theorem C23_or_search : forall (W : Type) (OW : Ord W) normalize (h : list (kop W)) (q : kquery W),
  normal_history normalize h ->
  exists s, k_search normalize q OpOr (k_run normalize h) = Ok s /\
    forall d, mem d s = true <->
      exists kw, get (keywords normalize h) d = Some kw /\ has_one kw (asked normalize q).
Proof. exact @k_search_or. Qed.
Print Assumptions C23_or_search.
Example C23_or_search_ex :
  (do s <- k_search normalize_id (KWords [9; 10; 11]) OpOr (k_run normalize_id ex_kw); Ok (selems s)) = Ok [1; 2; 3].
Proof. vm_compute; reflexivity. Qed.

(** C23: any other operator. *)
Theorem C23_other_operator : forall (W : Type) (OW : Ord W) normalize (st : kstate W) q,
  k_search normalize q OpOther st = Raise TypeError.
Proof. exact @k_search_other. Qed.
Print Assumptions C23_other_operator.

(** C23: KeywordIndex itself (normalize is the identity) meets the hypothesis. *)
Theorem C23_default : forall (W : Type) (h : list (kop W)), normal_history normalize_id h.
Proof. exact @id_normal. Qed.
Print Assumptions C23_default.

(** C24: statistics. *)
Theorem C24_statistics : forall (W : Type) (OW : Ord W) normalize (h : list (kop W)),
  normal_history normalize h ->
  k_documentCount (k_run normalize h) = Zlen (keys (keywords normalize h)) /\
  (exists words, NoDup words /\
     (forall w, In w words <-> exists d kw, get (keywords normalize h) d = Some kw /\ mem w kw = true) /\
     k_wordCount (k_run normalize h) = Zlen words) /\
  (forall d, k_has_doc d (k_run normalize h) = mem d (keywords normalize h)).
Proof. exact @k_stats. Qed.
Print Assumptions C24_statistics.
Example C24_statistics_ex :
  k_documentCount (k_run normalize_id ex_kw) = 3 /\ k_wordCount (k_run normalize_id ex_kw) = 3 /\
  k_has_doc 4 (k_run normalize_id ex_kw) = false.
Proof. vm_compute; auto. Qed.

(** C25: indexing replaces the keywords of the document and of no other. *)
Theorem C25_index_replaces : forall (W : Type) (OW : Ord W) normalize (h : list (kop W)) d l,
  l <> [] ->
  forall d', get (keywords normalize (h ++ [KIndex d (SeqList l)])) d' =
    if eqb d' d then Some (set_of_list (normalize l)) else get (keywords normalize h) d'.
Proof. exact @replace_law. Qed.
Print Assumptions C25_index_replaces.
(** C25: indexing the empty sequence and unindexing remove the document and
    nothing else, and do nothing for unknown documents. *)
Theorem C25_remove : forall (W : Type) (OW : Ord W) normalize (h : list (kop W)) d,
  normal_history normalize h ->
  (forall d', get (keywords normalize (h ++ [KUnindex d])) d' = (if eqb d' d then None else get (keywords normalize h) d')) /\
  keywords normalize (h ++ [KIndex d (SeqList [])]) = keywords normalize (h ++ [KUnindex d]) /\
  k_run normalize (h ++ [KIndex d (SeqList [])]) = k_run normalize (h ++ [KUnindex d]) /\
  (k_has_doc d (k_run normalize h) = false -> k_run normalize (h ++ [KUnindex d]) = k_run normalize h).
Proof. exact @remove_laws. Qed.
Print Assumptions C25_remove.
(** C25: the same as seen by searches.  Indexing [d] leaves every answer about other
    documents as it was, and [d] is found for exactly the (normalized) keywords given. *)
Theorem C25_index_observed : forall (W : Type) (OW : Ord W) normalize (h : list (kop W)) d l,
  normal_history normalize h -> l <> [] -> normalize l <> [] ->
  let before := k_run normalize h in
  let after := k_run normalize (h ++ [KIndex d (SeqList l)]) in
  (forall d' q op, d' <> d -> (found normalize q op after d' <-> found normalize q op before d')) /\
  (forall q, found normalize q OpAnd after d <-> asked normalize q <> [] /\ incl (asked normalize q) (normalize l)) /\
  (forall q, found normalize q OpOr after d <-> exists w, In w (asked normalize q) /\ In w (normalize l)) /\
  k_has_doc d after = true.
Proof. exact @index_observed. Qed.
Print Assumptions C25_index_observed.
(** Unindexing [d] leaves every answer about other documents as it was, and [d] is
    found no more. *)
Theorem C25_unindex_observed : forall (W : Type) (OW : Ord W) normalize (h : list (kop W)) d,
  normal_history normalize h ->
  let before := k_run normalize h in
  let after := k_run normalize (h ++ [KUnindex d]) in
  (forall d' q op, d' <> d -> (found normalize q op after d' <-> found normalize q op before d')) /\
  (forall q op, ~ found normalize q op after d) /\
  k_has_doc d after = false.
Proof. exact @unindex_observed. Qed.
Print Assumptions C25_unindex_observed.
Example C25_observed_ex :
  (do s <- k_search normalize_id (KWord 8) OpAnd (k_run normalize_id ex_kw); Ok (selems s)) = Ok [1; 2] /\
  (do s <- k_search normalize_id (KWord 8) OpAnd (k_run normalize_id (ex_kw ++ [KIndex 1 (SeqList [9])])); Ok (selems s)) = Ok [2] /\
  (do s <- k_search normalize_id (KWord 8) OpAnd (k_run normalize_id (ex_kw ++ [KUnindex 2])); Ok (selems s)) = Ok [1].
Proof. vm_compute; auto. Qed.
(** C25: the answers depend on the current mapping only. *)
Theorem C25_answers_of_mapping : forall (W : Type) (OW : Ord W) normalize (h1 h2 : list (kop W)),
  normal_history normalize h1 -> normal_history normalize h2 ->
  keywords normalize h1 = keywords normalize h2 ->
  same_answers normalize (k_run normalize h1) (k_run normalize h2).
Proof. exact @same_keywords. Qed.
Print Assumptions C25_answers_of_mapping.
Example C25_answers_of_mapping_ex :
  keywords normalize_id ex_kw = keywords normalize_id [KIndex 3 (SeqList [9]); KIndex 2 (SeqList [8; 9]); KIndex 1 (SeqList [8; 10; 8])].
Proof. apply elts_inj; vm_compute; reflexivity. Qed.
(** C25: only a plain string argument raises, and then nothing changes. *)
Theorem C25_exceptions : forall (W : Type) (OW : Ord W) normalize (h : list (kop W)) o,
  normal_history normalize h -> op_normal normalize o ->
  snd (k_step normalize (k_run normalize h) o) = match o with KIndex _ SeqStr => Raise TypeError | _ => Ok tt end /\
  (forall d, o = KIndex d SeqStr -> fst (k_step normalize (k_run normalize h) o) = k_run normalize h).
Proof. exact @k_calls_ok. Qed.
Print Assumptions C25_exceptions.
Example C25_exceptions_ex :
  snd (k_step normalize_id (k_run normalize_id ex_kw) (KIndex 9 SeqStr)) = Raise TypeError /\
  snd (k_step normalize_id (k_run normalize_id ex_kw) (KIndex 1 (SeqList [11]))) = Ok tt.
Proof. vm_compute; auto. Qed.

(** C26: threshold changes and optimize calls can be erased from a history. *)
Theorem C26_threshold_invisible : forall (W : Type) (OW : Ord W) normalize (h : list (kop W)),
  normal_history normalize h ->
  same_answers normalize (k_run normalize h) (k_run normalize (filter (fun o => negb (tuning o)) h)).
Proof. exact @tuning_invisible. Qed.
Print Assumptions C26_threshold_invisible.
Example C26_threshold_invisible_ex :
  length (filter (fun o => negb (tuning o)) ex_kw) = 7%nat /\
  kfwd (k_run normalize_id ex_kw) <> kfwd (k_run normalize_id (filter (fun o => negb (tuning o)) ex_kw)).
Proof. split; [reflexivity|]. intros H. apply (f_equal (fun m => get m 8)) in H. vm_compute in H. discriminate. Qed.
(** C26: the representation after optimize. *)
Theorem C26_optimize : forall (W : Type) (OW : Ord W) (st : kstate W) w is_tree s,
  get (kfwd (k_optimize st)) w = Some (is_tree, s) -> (is_tree = true <-> threshold st <= Zsize s).
Proof. exact @optimize_kinds. Qed.
Print Assumptions C26_optimize.
Example C26_optimize_ex :
  (match get (kfwd (k_optimize (k_run normalize_id ex_kw))) 8 with Some (t, s) => Some (t, selems s) | None => None end)
  = Some (true, [1; 2]).
Proof. vm_compute; reflexivity. Qed.

(** C27: only lower-cased keywords matter, for indexing and for searching. *)
Theorem C27_case_insensitive : forall (W : Type) (OW : Ord W) (lower : W -> W) (h1 h2 : list (kop W)) q1 q2 op,
  map (lower_op lower) h1 = map (lower_op lower) h2 -> lower_query lower q1 = lower_query lower q2 ->
  k_search (normalize_lower lower) q1 op (k_run (normalize_lower lower) h1)
  = k_search (normalize_lower lower) q2 op (k_run (normalize_lower lower) h2) /\
  k_run (normalize_lower lower) h1 = k_run (normalize_lower lower) h2.
Proof. exact @case_insensitive. Qed.
Print Assumptions C27_case_insensitive.
Definition ex_lower (w : str) : str := map (fun c => if (65 <=? c) && (c <=? 90) then c + 32 else c) w.
Example C27_case_insensitive_ex :
  map (lower_op ex_lower) [KIndex 1 (SeqList [[65; 66]])] = map (lower_op ex_lower) [KIndex 1 (SeqList [[97; 66]])] /\
  (do s <- k_search (normalize_lower ex_lower) (KWord [65; 98]) OpAnd (k_run (normalize_lower ex_lower) [KIndex 1 (SeqList [[97; 66]])]);
   Ok (selems s)) = Ok [1].
Proof. vm_compute; auto. Qed.
(** C27: the index behaves as a KeywordIndex given lower-cased keywords, and C23-C26 apply to it. *)
Theorem C27_as_lowercased : forall (W : Type) (OW : Ord W) (lower : W -> W) (h : list (kop W)),
  k_run (normalize_lower lower) h = k_run normalize_id (map (lower_op lower) h) /\
  normal_history (normalize_lower lower) h.
Proof. intros W OW lower h. exact (conj (lower_run lower h) (lower_normal lower h)). Qed.
Print Assumptions C27_as_lowercased.

(** C28: with a normalize that drops every keyword the index goes wrong: here
    keyword 0 is dropped.  Statistics are off, has_doc and documentCount disagree,
    and a later index_doc raises KeyError. *)
Definition drop0 (l : list Z) : list Z := filter (fun w => negb (w =? 0)) l.
Definition ex_drop : list (kop Z) := [KIndex 1 (SeqList [0]); KIndex 2 (SeqList [5]); KIndex 2 (SeqList [0])].
Lemma drop_goes_wrong :
  k_documentCount (k_run drop0 ex_drop) = 2 /\ k_has_doc 1 (k_run drop0 ex_drop) = false /\
  k_has_doc 2 (k_run drop0 ex_drop) = true /\
  (forall d kw w, get (keywords drop0 ex_drop) d = Some kw -> mem w kw = false) /\
  snd (k_step drop0 (k_run drop0 ex_drop) (KIndex 2 (SeqList [6]))) = Raise KeyError.
Proof.
  splits; try (vm_compute; reflexivity). intros d kw w H. rewrite keywords_last in H.
  cbn [ex_drop rev app kw_last] in H. destruct (eqb d 2); [injection H as <-; reflexivity|].
  destruct (eqb d 1); [injection H as <-; reflexivity|discriminate].
Qed.
Theorem C28_filtering_normalize_refuted : exists (normalize : list Z -> list Z) (h : list (kop Z)),
  k_documentCount (k_run normalize h) = 2 /\ k_has_doc 1 (k_run normalize h) = false /\
  k_has_doc 2 (k_run normalize h) = true /\
  (forall d kw w, get (keywords normalize h) d = Some kw -> mem w kw = false) /\
  snd (k_step normalize (k_run normalize h) (KIndex 2 (SeqList [6]))) = Raise KeyError.
Proof. exact (ex_intro _ drop0 (ex_intro _ ex_drop drop_goes_wrong)). Qed.
Print Assumptions C28_filtering_normalize_refuted.
(** C28: the positive part, for every override that keeps at least one keyword of
    every non-empty sequence. *)
Lemma nonemptying {W} (normalize : list W -> list W) (h : list (kop W)) :
  (forall l, l <> [] -> normalize l <> []) -> normal_history normalize h.
Proof. intros H. apply Forall_forall. intros [d [|l]|d| | |n] _; cbn; auto. Qed.
Theorem C28_nonemptying_normalize : forall (W : Type) (normalize : list W -> list W) (h : list (kop W)),
  (forall l, l <> [] -> normalize l <> []) -> normal_history normalize h.
Proof. exact @nonemptying. Qed.
Print Assumptions C28_nonemptying_normalize.

(** C29: the model with object identities gives the same answers. *)
Theorem C29_same_answers : forall (W : Type) (OW : Ord W) normalize (h : list (hop W)) q op,
  rmap (contents (fst (h_search normalize q op (h_exec normalize h h_new)))) (snd (h_search normalize q op (h_exec normalize h h_new)))
  = k_search normalize q op (k_run normalize (updates h)).
Proof. exact @heap_search_same. Qed.
Print Assumptions C29_same_answers.
(** C29: a result that is not from a single-keyword 'and' search never changes. *)
Theorem C29_snapshots : forall (W : Type) (OW : Ord W) normalize (h1 h2 : list (hop W)) q op st' r,
  h_search normalize q op (h_exec normalize h1 h_new) = (st', Ok r) ->
  live_query normalize q op = false ->
  contents (h_exec normalize h2 st') r = contents st' r.
Proof. exact @snapshots. Qed.
Print Assumptions C29_snapshots.
Definition ex_h1 : list (hop Z) := map HUpdate ex_kw.
Definition ex_h2 : list (hop Z) := [HUpdate (KIndex 7 (SeqList [8; 9])); HUpdate (KUnindex 2); HSearch (KWords [8; 9]) OpAnd].
Example C29_snapshots_ex :
  (let '(st', out) := h_search normalize_id (KWords [8; 9]) OpAnd (h_exec normalize_id ex_h1 h_new) in
   do r <- out; Ok (selems (contents (h_exec normalize_id ex_h2 st') r))) = Ok [2].
Proof. vm_compute; reflexivity. Qed.
(** C29: a single-keyword 'and' search returns a set that later updates change. *)
Definition before_and_after (h1 h2 : list (hop Z)) (q : kquery Z) : res (list Z * list Z) :=
  let '(st', out) := h_search normalize_id q OpAnd (h_exec normalize_id h1 h_new) in
  do r <- out; Ok (selems (contents st' r), selems (contents (h_exec normalize_id h2 st') r)).
Lemma live_result : before_and_after ex_h1 ex_h2 (KWord 8) = Ok ([1; 2], [1; 7]).
Proof. vm_compute; reflexivity. Qed.
Theorem C29_snapshots_refuted : exists (h1 h2 : list (hop Z)) (q : kquery Z),
  before_and_after h1 h2 q = Ok ([1; 2], [1; 7]).
Proof. exact (ex_intro _ ex_h1 (ex_intro _ ex_h2 (ex_intro _ (KWord 8) live_result))). Qed.
Print Assumptions C29_snapshots_refuted.

(** C34: applying a query leaves it as it was. *)
Theorem C34_keyword_query_unchanged : forall (W : Type) (OW : Ord W) normalize (a : kapply W) (st : kstate W),
  fst (k_apply normalize a st) = a.
Proof. exact @k_apply_arg. Qed.
Print Assumptions C34_keyword_query_unchanged.
(** C34: what a query mapping means. *)
Theorem C34_keyword_apply : forall (W : Type) (OW : Ord W) normalize (st : kstate W) q op,
  snd (k_apply normalize (AQuery q) st) = k_search normalize q OpAnd st /\
  snd (k_apply normalize (ADict (mkDict (Some op) (Some q))) st) = k_search normalize q op st /\
  snd (k_apply normalize (ADict (mkDict None (Some q))) st) = k_search normalize q OpAnd st /\
  (forall o, snd (k_apply normalize (ADict (mkDict o None)) st) = Raise KeyError).
Proof. exact @k_apply_means. Qed.
Print Assumptions C34_keyword_apply.
