(** * Property C79: topic indexes sharing filters, and results that are sets in use
    (topic/index.py, topic/filter.py)

    A history may create any number of filters, add them to any number of indexes,
    and call indexes and filters.  [inside r d] (S_theap.v) reads off the history
    whether the filter [r] selects the document [d]; [held n i] which filter the index
    [n] has under the id [i]; [clearings r] how often [r] was emptied by a clear. *)
From Verif Require Import S_theap L_theap SMap Ord.

(** Examples: objects are integers, an expression is a bound.  The indexes 1 and 2
    share the filter 0 (id 10); the filter 1 (id 20) is only in the index 1. *)
Definition ex_eval (e : Z) (docid c : Z) : evres := if c =? 0 then Exc else if e <=? c then Truthy else Falsy.
Definition ex_w : list (wop Z Z Z) :=
  [WNew true 10 5; WNew true 20 7; WAdd 1 0; WAdd 1 1; WAdd 2 0; WIndex 1 100 6; WIndex 1 101 9; WIndex 2 102 8].
Definition look (r : res (sset Z)) : list Z := match r with Ok s => selems s | Raise _ => [-1] end.
Example ex_python : python_filters ex_w.
Proof. intros p i e H. repeat (destruct H as [[= <- _ _]|H]; [reflexivity|]). cbn in H. repeat (destruct H as [H|H]; [discriminate|]). destruct H. Qed.

(** C79: contents of every filter, whatever indexes hold it. *)
Theorem C79_contents : forall (I : Type) (OI : Ord I) (E C : Type) (eval : E -> Z -> C -> evres) (h : list (wop I E C)) (r : Z),
  python_filters h ->
  match w_getIds r (w_run eval h) with
  | Some l => id_of r (rev h) <> None /\ forall d, mem d (seen eval h l) = inside eval r d (rev h)
  | None => id_of r (rev h) = None
  end.
Proof. exact @theap_contents. Qed.
Print Assumptions C79_contents.
Example C79_contents_ex :
  map (fun r => match w_getIds r (w_run ex_eval ex_w) with Some l => selems (seen ex_eval ex_w l) | None => [-1] end) [0; 1; 2]
  = [[100; 101; 102]; [101]; [-1]].
Proof. vm_compute; reflexivity. Qed.

(** C79: what a search finds. *)
Theorem C79_search : forall (I : Type) (OI : Ord I) (E C : Type) (eval : E -> Z -> C -> evres) (h : list (wop I E C)) n q op,
  python_filters h -> q <> TOther -> op <> OpOther ->
  exists s, answer eval h n q op = Ok s /\ forall d, mem d s = true <-> finds eval n q op d (rev h).
Proof. exact @theap_search. Qed.
Print Assumptions C79_search.
Example C79_search_ex :
  look (answer ex_eval ex_w 1 (TIds [10; 20]) OpAnd) = [101] /\ look (answer ex_eval ex_w 1 (TId 10) OpAnd) = [100; 101; 102] /\
  look (answer ex_eval ex_w 2 (TIds [10; 20]) OpOr) = [100; 101; 102].
Proof. vm_compute; auto. Qed.

(** C79: which calls raise. *)
Theorem C79_calls : forall (I : Type) (OI : Ord I) (E C : Type) (eval : E -> Z -> C -> evres) (h : list (wop I E C)) o,
  python_filters (h ++ [o]) -> snd (w_step eval (w_run eval h) o) = outcome o (rev h).
Proof. exact @theap_results. Qed.
Print Assumptions C79_calls.
Example C79_calls_ex :
  snd (w_step ex_eval (w_run ex_eval ex_w) (WDel 2 20)) = Raise KeyError /\
  snd (w_step ex_eval (w_run ex_eval ex_w) (WDel 1 20)) = Ok tt.
Proof. vm_compute; auto. Qed.

(** C79: with one index whose filters are its own, this is the topic index of C30-C34. *)
Theorem C79_own_filters : forall (I : Type) (OI : Ord I) (E C : Type) (eval : E -> Z -> C -> evres) (th : list (top I E C)) q op,
  python_only th -> new_filters th ->
  answer eval (rev (embed (rev th))) 0 q op = t_search q op (t_run eval th).
Proof. exact @theap_value. Qed.
Print Assumptions C79_own_filters.
Example C79_own_filters_ex :
  let th := [TAdd (filt_new true 1 10); TIndex 5 15; TAdd (filt_new true 2 10); TIndex 6 25; TSetExpr 1 30; TIndex 7 26] in
  look (answer ex_eval (rev (embed (rev th))) 0 (TId 1) OpAnd) = [5; 6] /\
  look (answer ex_eval (rev (embed (rev th))) 0 (TIds [1; 2]) OpOr) = [5; 6; 7] /\ new_filters th.
Proof.
  split; [vm_compute; reflexivity|]. split; [vm_compute; reflexivity|].
  intros f H. cbn in H. repeat (destruct H as [H|H]; [inversion H; reflexivity|]). destruct H.
Qed.

(** C79: calls of other indexes do not change the answers of an index, unless they
    share a filter. *)
Theorem C79_elsewhere : forall (I : Type) (OI : Ord I) (E C : Type) (eval : E -> Z -> C -> evres) (h : list (wop I E C)) o n q op,
  python_filters (h ++ [o]) -> elsewhere n o h ->
  answer eval (h ++ [o]) n q op = answer eval h n q op.
Proof. exact @theap_elsewhere. Qed.
Print Assumptions C79_elsewhere.
Example C79_elsewhere_ex : elsewhere 2 (WFClear 1) ex_w /\ elsewhere 2 (WClear 1) ex_w /\ elsewhere 3 (WIndex 1 5 5) ex_w.
Proof. split; [reflexivity|]. split; [discriminate|]. split; [discriminate|]. intros r _. unfold holds. destruct (id_of r (rev ex_w)); reflexivity. Qed.
(** C79, refuted: calls of another index change no answers.  They do if it shares a filter. *)
Lemma shared_filter : look (answer ex_eval ex_w 2 (TId 10) OpAnd) = [100; 101; 102] /\
  look (answer ex_eval (ex_w ++ [WClearFilters 1]) 2 (TId 10) OpAnd) = [].
Proof. vm_compute; auto. Qed.
Theorem C79_elsewhere_refuted : exists (h : list (wop Z Z Z)) n m q, n <> m /\
  look (answer ex_eval h n q OpAnd) = [100; 101; 102] /\ look (answer ex_eval (h ++ [WClearFilters m]) n q OpAnd) = [].
Proof. exists ex_w, 2, 1, (TId 10). split; [discriminate|exact shared_filter]. Qed.
Print Assumptions C79_elsewhere_refuted.

(** C79: a result is a snapshot, unless it is that of an 'and' search with one filter. *)
Theorem C79_snapshots : forall (I : Type) (OI : Ord I) (E C : Type) (eval : E -> Z -> C -> evres) (h : list (wop I E C)) n q op l h2,
  python_filters (h ++ h2) -> result eval h n q op = Ok l ->
  (op <> OpAnd \/ ~ exists r, only n q r h) ->
  seen eval (h ++ WSearch n q op :: h2) l = seen eval (h ++ [WSearch n q op]) l.
Proof. exact @theap_snapshots. Qed.
Print Assumptions C79_snapshots.
(** C79: changing such a result changes no answer. *)
Theorem C79_result_is_own : forall (I : Type) (OI : Ord I) (E C : Type) (eval : E -> Z -> C -> evres) (h : list (wop I E C)) n q op l s h2,
  python_filters (h ++ h2) -> result eval h n q op = Ok l ->
  (op <> OpAnd \/ ~ exists r, only n q r h) ->
  forall n' q' op', let w := w_exec eval h2 (w_assign l s (w_run eval (h ++ [WSearch n q op]))) in
  rmap (set_at (fst (w_search n' q' op' w))) (snd (w_search n' q' op' w)) = answer eval (h ++ WSearch n q op :: h2) n' q' op'.
Proof. exact @theap_caller. Qed.
Print Assumptions C79_result_is_own.
Definition ex_later : list (wop Z Z Z) := [WIndex 1 103 9; WFUnindex 0 100].
Definition seen_later (h : list (wop Z Z Z)) n q op (h2 : list (wop Z Z Z)) : list Z :=
  match result ex_eval h n q op with Ok l => selems (seen ex_eval (h ++ WSearch n q op :: h2) l) | Raise _ => [-1] end.
Example C79_snapshots_ex :
  seen_later ex_w 1 (TIds [10; 20]) OpAnd ex_later = [101] /\ seen_later ex_w 2 (TId 10) OpOr ex_later = [100; 101; 102] /\
  look (answer ex_eval (ex_w ++ ex_later) 1 (TIds [10; 20]) OpAnd) = [101; 103] /\
  ~ exists r, only 1 (TIds [10; 20]) r ex_w.
Proof.
  split; [vm_compute; reflexivity|]. split; [vm_compute; reflexivity|]. split; [vm_compute; reflexivity|].
  intros [r Hr]. assert (H0 : 0 = r) by (apply Hr; exists 10; split; [left; reflexivity|reflexivity]).
  assert (H1 : 1 = r) by (apply Hr; exists 20; split; [right; left; reflexivity|reflexivity]). congruence.
Qed.

(** C79: an 'and' search with one filter that is not empty returns the filter's own set:
    until the filter is cleared, the result shows what the filter selects now. *)
Theorem C79_live : forall (I : Type) (OI : Ord I) (E C : Type) (eval : E -> Z -> C -> evres) (h : list (wop I E C)) n q l h2 r d,
  python_filters (h ++ h2) -> result eval h n q OpAnd = Ok l ->
  only n q r h -> inside eval r d (rev h) = true ->
  clearings r (rev (h ++ WSearch n q OpAnd :: h2)) = clearings r (rev h) ->
  w_getIds r (w_run eval (h ++ WSearch n q OpAnd :: h2)) = Some l /\
  forall d', mem d' (seen eval (h ++ WSearch n q OpAnd :: h2) l) = inside eval r d' (rev (h ++ WSearch n q OpAnd :: h2)).
Proof. exact @theap_live. Qed.
Print Assumptions C79_live.
Lemma ex_only : only 2 (TId 10) 0 ex_w.
Proof.
  intros r'. split.
  - intros (i & Hi & Hr). cbn in Hi. subst i. vm_compute in Hr. injection Hr as <-. reflexivity.
  - intros ->. exists 10. split; [reflexivity|vm_compute; reflexivity].
Qed.
Example C79_live_ex : only 2 (TId 10) 0 ex_w /\ inside ex_eval 0 100 (rev ex_w) = true /\
  clearings 0 (rev (ex_w ++ WSearch 2 (TId 10) OpAnd :: ex_later)) = clearings 0 (rev ex_w) /\
  seen_later ex_w 2 (TId 10) OpAnd [] = [100; 101; 102] /\ seen_later ex_w 2 (TId 10) OpAnd ex_later = [101; 102; 103].
Proof. split; [exact ex_only|]. vm_compute; auto. Qed.
(** C79: once the filter has been cleared, the result no longer changes. *)
Theorem C79_cleared : forall (I : Type) (OI : Ord I) (E C : Type) (eval : E -> Z -> C -> evres) (h : list (wop I E C)) n q l h2 h3 r d,
  python_filters (h ++ h2 ++ h3) -> result eval h n q OpAnd = Ok l ->
  only n q r h -> inside eval r d (rev h) = true ->
  clearings r (rev (h ++ WSearch n q OpAnd :: h2)) <> clearings r (rev h) ->
  seen eval (h ++ WSearch n q OpAnd :: h2 ++ h3) l = seen eval (h ++ WSearch n q OpAnd :: h2) l.
Proof. exact @theap_cleared. Qed.
Print Assumptions C79_cleared.
Example C79_cleared_ex :
  seen_later ex_w 2 (TId 10) OpAnd [WClearFilters 1] = [100; 101; 102] /\
  seen_later ex_w 2 (TId 10) OpAnd (WClearFilters 1 :: ex_later) = [100; 101; 102] /\
  look (answer ex_eval (ex_w ++ WClearFilters 1 :: ex_later) 2 (TId 10) OpAnd) = [103].
Proof. vm_compute; auto. Qed.

(** C79, refuted: results are snapshots, and changing them changes no answer. *)
Definition after_change (h : list (wop Z Z Z)) n q (s : list Z) n' : list Z :=
  match result ex_eval h n q OpAnd with
  | Ok l => let w := w_assign l (set_of_list s) (w_run ex_eval (h ++ [WSearch n q OpAnd])) in
            look (rmap (set_at (fst (w_search n' q OpAnd w))) (snd (w_search n' q OpAnd w)))
  | Raise _ => [-1]
  end.
Lemma changed_result : seen_later ex_w 2 (TId 10) OpAnd [] = [100; 101; 102] /\
  seen_later ex_w 2 (TId 10) OpAnd ex_later = [101; 102; 103] /\ after_change ex_w 2 (TId 10) [7] 1 = [7].
Proof. vm_compute; auto. Qed.
Theorem C79_snapshots_refuted : exists (h h2 : list (wop Z Z Z)) n q m, n <> m /\
  seen_later h n q OpAnd [] = [100; 101; 102] /\ seen_later h n q OpAnd h2 = [101; 102; 103] /\ after_change h n q [7] m = [7].
Proof. exists ex_w, ex_later, 2, (TId 10), 1. split; [discriminate|exact changed_result]. Qed.
Print Assumptions C79_snapshots_refuted.
