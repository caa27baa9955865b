(** * Properties C30-C34: topic index (topic/index.py, topic/filter.py)

    [eval] is what evaluating a filter expression does (true, false, exception);
    [expr_of] and [selected] (S_topic.v) read the expression and the contents of a
    filter off the history of calls (latest first). *)
From Verif Require Import S_topic M_topic L_topic SMap Ord.

(** Examples: objects are integers, an expression is a bound; the value 0 makes
    evaluation fail. *)
Definition ex_eval (e : Z) (docid c : Z) : evres := if c =? 0 then Exc else if e <=? c then Truthy else Falsy.
Definition ex_t : list (top Z Z Z) :=
  [TAdd (filt_new true 1 10); TAdd (filt_new true 2 20); TIndex 5 15; TIndex 6 25; TIndex 7 0; TIndex 6 5; TIndex 8 30; TUnindex 8].

(** C30: contents of every filter. *)
Theorem C30_filter_contents : forall (I : Type) (OI : Ord I) (E C : Type) (eval : E -> Z -> C -> evres)
    (h : list (top I E C)) (i : I),
  python_only h ->
  match get (t_run eval h) i with
  | Some f => f_id f = i /\ expr_of i (rev h) = Some (f_expr f) /\
              forall d, mem d (f_ids f) = selected eval i d (rev h)
  | None => expr_of i (rev h) = None
  end.
Proof. exact @filter_contents. Qed.
Print Assumptions C30_filter_contents.
Example C30_filter_contents_ex :
  map (fun p => (fst p, selems (f_ids (snd p)))) (elts (t_run ex_eval ex_t)) = [(1, [5; 6]); (2, [6])].
Proof. vm_compute; reflexivity. Qed.
Example python_only_ex : python_only ex_t.
Proof. intros f H. repeat (destruct H as [[= <-]|H]; [reflexivity|]). cbn in H. repeat (destruct H as [H|H]; [discriminate|]). destruct H. Qed.

(** C30: whatever evaluation does, only deleting an unknown filter raises. *)
Theorem C30_exceptions : forall (I : Type) (OI : Ord I) (E C : Type) (eval : E -> Z -> C -> evres)
    (h : list (top I E C)) (o : top I E C),
  python_only (h ++ [o]) ->
  snd (t_step eval (t_run eval h) o) = match o with
    | TDel i => match expr_of i (rev h) with Some _ => Ok tt | None => Raise KeyError end
    | _ => Ok tt end.
Proof. exact @topic_calls. Qed.
Print Assumptions C30_exceptions.
Example C30_exceptions_ex :
  snd (t_step ex_eval (t_run ex_eval ex_t) (TIndex 9 0)) = Ok tt /\
  snd (t_step ex_eval (t_run ex_eval ex_t) (TDel 3)) = Raise KeyError.
Proof. vm_compute; auto. Qed.

(** C31: after index_doc a filter contains the document iff the new object
    satisfies the expression or the document was selected before. *)
Theorem C31_index_adds_only : forall (I : Type) (OI : Ord I) (E C : Type) (eval : E -> Z -> C -> evres)
    (h : list (top I E C)) d c (i : I) f,
  python_only h -> get (t_run eval (h ++ [TIndex d c])) i = Some f ->
  mem d (f_ids f) = satisfies eval (f_expr f) d c || selected eval i d (rev h).
Proof. exact @reindex_adds. Qed.
Print Assumptions C31_index_adds_only.
(** C31: unindexing first makes it exact. *)
Theorem C31_unindex_then_index : forall (I : Type) (OI : Ord I) (E C : Type) (eval : E -> Z -> C -> evres)
    (h : list (top I E C)) d c (i : I) f,
  python_only h -> get (t_run eval (h ++ [TUnindex d; TIndex d c])) i = Some f ->
  mem d (f_ids f) = satisfies eval (f_expr f) d c.
Proof. exact @reindex_fresh. Qed.
Print Assumptions C31_unindex_then_index.
Example C31_unindex_then_index_ex :
  match get (t_run ex_eval (ex_t ++ [TUnindex 6; TIndex 6 5])) 1 with Some f => selems (f_ids f) | None => [] end = [5].
Proof. vm_compute; reflexivity. Qed.
(** C31: reindexing with an object that does not satisfy the expression leaves the
    document in the filter. *)
Definition contains_after (eval : Z -> Z -> Z -> evres) (h : list (top Z Z Z)) (i d : Z) : option bool :=
  match get (t_run eval h) i with Some f => Some (mem d (f_ids f)) | None => None end.
Lemma stale_selection : contains_after ex_eval (ex_t ++ [TIndex 6 5]) 1 6 = Some true /\ satisfies ex_eval 10 6 5 = false /\
  expr_of 1 (rev ex_t) = Some 10.
Proof. vm_compute; auto. Qed.
Theorem C31_reindex_replaces_refuted : exists eval (h : list (top Z Z Z)) i d c e,
  contains_after eval (h ++ [TIndex d c]) i d = Some true /\ satisfies eval e d c = false /\ expr_of i (rev h) = Some e.
Proof.
  exact (ex_intro _ ex_eval (ex_intro _ ex_t (ex_intro _ 1 (ex_intro _ 6 (ex_intro _ 5 (ex_intro _ 10 stale_selection)))))).
Qed.
Print Assumptions C31_reindex_replaces_refuted.

(** C32: 'or' searches. *)
Theorem C32_or_search : forall (I : Type) (OI : Ord I) (E : Type) (q : tquery I) (st : smap I (filt I E)),
  q <> TOther ->
  exists s, t_search q OpOr st = Ok s /\
    forall d, mem d s = true <-> exists i f, named i q /\ get st i = Some f /\ mem d (f_ids f) = true.
Proof. exact @t_search_or. Qed.
Print Assumptions C32_or_search.
Example C32_or_search_ex :
  (do s <- t_search (TIds [1; 2; 9]) OpOr (t_run ex_eval ex_t); Ok (selems s)) = Ok [5; 6].
Proof. vm_compute; reflexivity. Qed.
(** C32: 'and' searches. *)
Theorem C32_and_search : forall (I : Type) (OI : Ord I) (E : Type) (q : tquery I) (st : smap I (filt I E)),
  q <> TOther ->
  exists s, t_search q OpAnd st = Ok s /\
    forall d, mem d s = true <->
      (exists i f, named i q /\ get st i = Some f) /\
      (forall i f, named i q -> get st i = Some f -> mem d (f_ids f) = true).
Proof. exact @t_search_and. Qed.
Print Assumptions C32_and_search.
Example C32_and_search_ex :
  (do s <- t_search (TIds [1; 2; 9]) OpAnd (t_run ex_eval ex_t); Ok (selems s)) = Ok [6].
Proof. vm_compute; reflexivity. Qed.
(** C32: errors. *)
Theorem C32_errors : forall (I : Type) (OI : Ord I) (E : Type) (q : tquery I) op (st : smap I (filt I E)),
  t_search TOther op st = Raise TypeError /\ t_search q OpOther st = Raise TypeError.
Proof. exact @t_search_errors. Qed.
Print Assumptions C32_errors.

(** C33: with known filters an 'and' search is the intersection of all named filters. *)
Theorem C33_known_filters : forall (I : Type) (OI : Ord I) (E : Type) (q : tquery I) (st : smap I (filt I E)),
  q <> TOther -> (exists i, named i q) -> (forall i, named i q -> exists f, get st i = Some f) ->
  exists s, t_search q OpAnd st = Ok s /\
    forall d, mem d s = true <-> forall i, named i q -> exists f, get st i = Some f /\ mem d (f_ids f) = true.
Proof. exact @t_search_and_known. Qed.
Print Assumptions C33_known_filters.
Example C33_known_filters_ex : forall i, named i (TIds [1; 2]) -> exists f, get (t_run ex_eval ex_t) i = Some f.
Proof. intros i [<-|[<-|[]]]; eexists; reflexivity. Qed.
(** C33: an unknown filter is ignored instead. *)
Lemma unknown_filter : get (t_run ex_eval ex_t) 9 = None /\
  (do s <- t_search (TIds [1; 9]) OpAnd (t_run ex_eval ex_t); Ok (selems s)) = Ok [5; 6].
Proof. vm_compute; auto. Qed.
Theorem C33_unknown_filters_refuted : exists (st : smap Z (filt Z Z)) (i j : Z),
  get st j = None /\ (do s <- t_search (TIds [i; j]) OpAnd st; Ok (selems s)) = Ok [5; 6].
Proof. exact (ex_intro _ (t_run ex_eval ex_t) (ex_intro _ 1 (ex_intro _ 9 unknown_filter))). Qed.
Print Assumptions C33_unknown_filters_refuted.

(** C34: what a query mapping means to a topic index. *)
Theorem C34_topic_apply : forall (I : Type) (OI : Ord I) (E : Type) (st : smap I (filt I E)) q op,
  snd (t_apply (TPlain q) st) = t_search q OpAnd st /\
  snd (t_apply (TDict (mkTDict (Some op) (Some q))) st) = t_search q op st /\
  snd (t_apply (TDict (mkTDict None (Some q))) st) = t_search q OpAnd st /\
  (forall o, snd (t_apply (TDict (mkTDict o None)) st) = Raise KeyError).
Proof. exact @t_apply_means. Qed.
Print Assumptions C34_topic_apply.
(** C34: 'operator' is removed from the caller's mapping, nothing else. *)
Theorem C34_topic_query_after : forall (I : Type) (OI : Ord I) (E : Type) (a : tapply I) (st : smap I (filt I E)),
  fst (t_apply a st) = match a with TDict d => TDict (mkTDict None (td_query d)) | TPlain q => a end.
Proof. exact @t_apply_arg. Qed.
Print Assumptions C34_topic_query_after.
(** C34: so applying the same mapping twice can give two answers. *)
Definition apply_twice (a : tapply Z) (st : smap Z (filt Z Z)) : res (list Z * list Z) :=
  let '(a', r1) := t_apply a st in
  let '(_, r2) := t_apply a' st in
  do s1 <- r1; do s2 <- r2; Ok (selems s1, selems s2).
Lemma two_answers : apply_twice (TDict (mkTDict (Some OpOr) (Some (TIds [1; 2])))) (t_run ex_eval ex_t) = Ok ([5; 6], [6]).
Proof. vm_compute; reflexivity. Qed.
Theorem C34_topic_query_unchanged_refuted : exists (a : tapply Z) (st : smap Z (filt Z Z)),
  apply_twice a st = Ok ([5; 6], [6]).
Proof. exact (ex_intro _ _ (ex_intro _ _ two_answers)). Qed.
Print Assumptions C34_topic_query_unchanged_refuted.
