(** * Property C77: document ids out of range in field, keyword and topic indexes
    (field/index.py, keyword/index.py, topic/index.py, topic/filter.py)

    [fits] tells which integers the BTree family of an index can store.  [rf_run], [rk_run]
    and [rt_run] are indexes after a history, [f_run], [k_run] and [t_run] those with all
    integers in range; [f_fitting], [k_fitting] and [t_fitting] leave out the calls about
    ids that do not fit. *)
From Verif Require Import L_range S_range M_range M_topic M_keyword M_field S_field S_keyword SMap PyVal Ord.
Open Scope list_scope.
Open Scope Z_scope.

Definition big : Z := 2 ^ 40.
Definition r_hist : list (fop Z) :=
  [FIndex 1 (VInt 5); FIndex big (VInt 7); FIndex 2 (VInt 7); FIndex big (VInt 9); FUnindex big; FIndex 3 VNone; FIndex big (VInt 5); FIndex 1 (VInt 6);
   FIndex (- big) (VInt 3)].
Example r_hist_ok : mutually_orderable r_hist.
Proof. intros v w Hv Hw. cbn in Hv, Hw. repeat destruct Hv as [<-|Hv]; try destruct Hv; repeat destruct Hw as [<-|Hw]; try destruct Hw; reflexivity. Qed.

(** ** Field index *)
(** C77: index_doc raises TypeError when the id does not fit, and otherwise nothing does;
    unindex_doc of such an id does nothing. *)
Theorem C77_field_results : forall (T : Type) (OT : Ord T) (fits : Z -> bool) (h : list (fop T)) (o : fop T), mutually_orderable (h ++ [o]) ->
  snd (rf_step fits (rf_run fits h) o) = match o with FIndex d _ => if fits d then Ok tt else Raise TypeError | _ => Ok tt end.
Proof. intros T OT fits h o Ho. exact (field_results fits (h ++ [o]) Ho h o [] eq_refl). Qed.
Print Assumptions C77_field_results.
Example C77_field_results_ex :
  snd (rf_step fits32 (rf_run fits32 r_hist) (FIndex big (VInt 1))) = Raise TypeError /\
  snd (rf_step fits32 (rf_run fits32 r_hist) (FIndex 4 (VInt 9))) = Ok tt /\
  snd (rf_step fits32 (rf_run fits32 r_hist) (FUnindex big)) = Ok tt.
Proof. vm_compute. repeat split; reflexivity. Qed.

(** C77: range searches, documentCount and sort answer as if the failed calls had not been
    made. *)
Theorem C77_field_search : forall (T : Type) (OT : Ord T) (fits : Z -> bool) (h : list (fop T)) (lo hi : pyval T), mutually_orderable h ->
  comparable lo h -> comparable hi h ->
  f_apply (QTuple [lo; hi]) (rf_run fits h) = f_apply (QTuple [lo; hi]) (f_run (f_fitting fits h)).
Proof. exact @field_apply_all. Qed.
Print Assumptions C77_field_search.
Theorem C77_field_documentCount : forall (fits : Z -> bool) (T : Type) (OT : Ord T) (h : list (fop T)), mutually_orderable h ->
  f_documentCount (rf_run fits h) = f_documentCount (f_run (f_fitting fits h)).
Proof. exact @field_count. Qed.
Print Assumptions C77_field_documentCount.
Theorem C77_field_sort : forall (T : Type) (OT : Ord T) (fits : Z -> bool) (h : list (fop T)), mutually_orderable h ->
  forall (heuristic : Z -> Z -> bool) (ov_lazy ov_nbest : bool) (docids : list Z) (reverse : bool) (limit : option Z),
  forallb fits docids = true ->
  rf_sort fits heuristic ov_lazy ov_nbest docids reverse limit (rf_run fits h) =
  f_sort heuristic ov_lazy ov_nbest docids reverse limit (f_run (f_fitting fits h)).
Proof. exact @field_sort_fit. Qed.
Print Assumptions C77_field_sort.
(** C77: sort raises TypeError when an id it is given does not fit. *)
Theorem C77_field_sort_unfit : forall (T : Type) (OT : Ord T) (fits : Z -> bool) (h : list (fop T)), mutually_orderable h ->
  forall (heuristic : Z -> Z -> bool) (ov_lazy ov_nbest : bool) (docids : list Z) (reverse : bool) (limit : option Z) (d : Z),
  limit_ok limit -> f_documentCount (rf_run fits h) <> 0 -> In d docids -> fits d = false ->
  rf_sort fits heuristic ov_lazy ov_nbest docids reverse limit (rf_run fits h) = Raise TypeError.
Proof. exact @field_sort_unfit. Qed.
Print Assumptions C77_field_sort_unfit.
Example C77_field_ex :
  comparable (VInt 0) r_hist /\ comparable VNone r_hist /\
  match f_apply (QTuple [VInt 0; VNone]) (rf_run fits32 r_hist) with Ok s => selems s | Raise _ => [] end = [1; 2] /\
  f_documentCount (rf_run fits32 r_hist) = 3 /\
  rf_sort fits32 (fun _ _ => false) false false [2; 1; 8] false None (rf_run fits32 r_hist) = Ok [1; 2] /\
  rf_sort fits32 (fun _ _ => false) false false [2; 1; big] false None (rf_run fits32 r_hist) = Raise TypeError.
Proof.
  split; [|split].
  1, 2: intros w Hw; cbn in Hw; repeat destruct Hw as [<-|Hw]; try destruct Hw; reflexivity.
  vm_compute. repeat split; reflexivity.
Qed.

(** C77: wordCount counts, besides the values that documents have, the values of failed
    calls, each until a document has it or the index is cleared. *)
Theorem C77_field_wordCount : forall (fits : Z -> bool) (T : Type) (OT : Ord T) (h : list (fop T)), mutually_orderable h ->
  exists values, NoDup values /\ (forall v, In v values <-> f_held fits h v \/ f_idle fits h v) /\ f_wordCount (rf_run fits h) = Zlen values.
Proof. exact @field_words. Qed.
Print Assumptions C77_field_wordCount.
(** In [r_hist] documents have the values 6, 7 and None; 9 and 3 were those of failed
    calls, as were 7 and 5 while documents had them. *)
Example C77_field_wordCount_ex :
  f_wordCount (rf_run fits32 r_hist) = 5 /\ f_wordCount (f_run (f_fitting fits32 r_hist)) = 3 /\ f_idle fits32 r_hist (VInt 3).
Proof.
  split; [vm_compute; reflexivity|]. split; [vm_compute; reflexivity|].
  exists (removelast r_hist), (- big), []. split; [reflexivity|]. split; [reflexivity|]. split; [intros []|]. intros a b E. symmetry in E.
  apply app_eq_nil in E as [-> _]. intros [d Hd].
  assert (Hc : vals (current (f_fitting fits32 (removelast r_hist ++ [FIndex (- big) (VInt 3)]))) = [VInt 6; VInt 7; VNone]) by (vm_compute; reflexivity).
  assert (Hv : In (VInt 3) (vals (current (f_fitting fits32 (removelast r_hist ++ [FIndex (- big) (VInt 3)]))))) by (apply vals_In; eauto).
  rewrite Hc in Hv. cbn in Hv. intuition discriminate.
Qed.
(** C77, refuted: a failed call leaves the index as it was. *)
Theorem C77_field_unchanged_refuted : exists (fits : Z -> bool) (h : list (fop Z)) (d : Z) (v : pyval Z),
  mutually_orderable (h ++ [FIndex d v]) /\ snd (rf_step fits (rf_run fits h) (FIndex d v)) = Raise TypeError /\
  f_wordCount (rf_run fits (h ++ [FIndex d v])) <> f_wordCount (rf_run fits h).
Proof.
  exists fits32, [], big, (VInt 1). split.
  - intros v w [<-|[]] [<-|[]]. reflexivity.
  - split; [reflexivity|discriminate].
Qed.
Print Assumptions C77_field_unchanged_refuted.
(** C77, refuted: a failed call does not make later calls fail.  (Where values cannot be
    ordered, the value of the failed call decides which ones the index accepts.) *)
Theorem C77_field_later_calls_refuted : exists (fits : Z -> bool) (h : list (fop Z)) (d : Z) (v : pyval Z), fits d = true /\
  (forall w, In w (values_of (f_fitting fits h)) -> key_ok v w = true) /\
  snd (rf_step fits (rf_run fits h) (FIndex d v)) = Raise TypeError /\ snd (f_step (f_run (f_fitting fits h)) (FIndex d v)) = Ok tt.
Proof.
  exists fits32, [FIndex big (VObj 0)], 1, (VInt 5). split; [reflexivity|]. split; [intros w []|]. split; reflexivity.
Qed.
Print Assumptions C77_field_later_calls_refuted.

(** ** Keyword index *)
Definition r_norm (l : list Z) : list Z := map (fun z => z mod 100) l.
Definition r_khist : list (kop Z) :=
  [KIndex 1 (SeqList [105; 7]); KIndex big (SeqList [9; 103; 5]); KIndex 2 (SeqList [8; 9]); KIndex big (SeqList [7; 8]); KIndex big (SeqList []);
   KUnindex big; KIndex 2 (SeqList [7; 9]); KOptimize; KIndex big (SeqList [8; 9]); KIndex big SeqStr].
Example r_khist_ok : normal_history r_norm r_khist.
Proof. unfold r_khist. repeat apply Forall_cons; try apply Forall_nil; try exact I; cbn; intros Hl; discriminate || (contradiction Hl; reflexivity). Qed.

(** C77: index_doc with keywords raises TypeError when the id does not fit, and other calls
    do not raise, except that a str is refused as always. *)
Theorem C77_keyword_results : forall (fits : Z -> bool) (W : Type) (OW : Ord W) (normalize : list W -> list W) (h : list (kop W)) (o : kop W),
  normal_history normalize (h ++ [o]) ->
  snd (rk_step fits normalize (rk_run fits normalize h) o) =
    match o with
    | KIndex _ SeqStr => Raise TypeError
    | KIndex d (SeqList (_ :: _)) => if fits d then Ok tt else Raise TypeError
    | _ => Ok tt
    end.
Proof. exact @keyword_results. Qed.
Print Assumptions C77_keyword_results.
(** C77: searches, documentCount and has_doc answer as if the failed calls had not been
    made. *)
Theorem C77_keyword_answers : forall (fits : Z -> bool) (W : Type) (OW : Ord W) (normalize : list W -> list W) (h : list (kop W)),
  normal_history normalize h ->
  (forall q op, k_search normalize q op (rk_run fits normalize h) = k_search normalize q op (k_run normalize (k_fitting fits h))) /\
  k_documentCount (rk_run fits normalize h) = k_documentCount (k_run normalize (k_fitting fits h)) /\
  (forall d, rk_has_doc fits d (rk_run fits normalize h) = fits d && k_has_doc d (k_run normalize (k_fitting fits h))).
Proof. exact @keyword_answers. Qed.
Print Assumptions C77_keyword_answers.
Example C77_keyword_answers_ex :
  let st := rk_run fits32 r_norm r_khist in
  match k_search r_norm (KWords [7; 9]) OpAnd st with Ok s => selems s | Raise _ => [] end = [2] /\
  match k_search r_norm (KWords [3; 7; 8]) OpOr st with Ok s => selems s | Raise _ => [] end = [1; 2] /\
  k_documentCount st = 2 /\ rk_has_doc fits32 1 st = true /\ rk_has_doc fits32 big st = false /\
  snd (rk_step fits32 r_norm st (KIndex big (SeqList [3]))) = Raise TypeError /\ snd (rk_step fits32 r_norm st (KIndex 3 (SeqList [3; 8]))) = Ok tt.
Proof. vm_compute. repeat split; reflexivity. Qed.

(** C77: wordCount counts, besides the keywords that documents have, the least keyword of
    each failed call, until a document has it or the index is cleared. *)
Theorem C77_keyword_wordCount : forall (fits : Z -> bool) (W : Type) (OW : Ord W) (normalize : list W -> list W) (h : list (kop W)),
  normal_history normalize h ->
  exists words, NoDup words /\ (forall w, In w words <-> k_held fits normalize h w \/ k_idle fits normalize h w) /\
    k_wordCount (rk_run fits normalize h) = Zlen words.
Proof. exact @keyword_words. Qed.
Print Assumptions C77_keyword_wordCount.
(** In [r_khist] documents have the keywords 5, 7 and 9; 3 and 8 are left of failed calls. *)
Example C77_keyword_wordCount_ex :
  k_wordCount (rk_run fits32 r_norm r_khist) = 5 /\ k_wordCount (k_run r_norm (k_fitting fits32 r_khist)) = 3 /\
  k_idle fits32 r_norm r_khist 8 /\ (exists d kw, get (keywords r_norm (k_fitting fits32 r_khist)) d = Some kw /\ mem 9 kw = true).
Proof.
  split; [vm_compute; reflexivity|]. split; [vm_compute; reflexivity|]. split.
  - exists (firstn 8 r_khist), big, [8; 9], [KIndex big SeqStr]. split; [reflexivity|]. split; [reflexivity|]. split; [discriminate|]. split.
    + split; [left; reflexivity|]. intros w [<-|[<-|[]]]; vm_compute; discriminate.
    + split; [intros [H|[]]; discriminate|]. intros a b E (d & kw & Hd & Hm).
      assert (Hk : keywords r_norm (k_fitting fits32 (firstn 8 r_khist ++ KIndex big (SeqList [8; 9]) :: a)) =
                   keywords r_norm (k_fitting fits32 (firstn 8 r_khist))).
      { destruct a as [|x [|y a]]; [reflexivity| |discriminate]. injection E as <- _. reflexivity. }
      rewrite Hk in Hd.
      assert (Hall : forallb (fun s => negb (mem 8 s)) (vals (keywords r_norm (k_fitting fits32 (firstn 8 r_khist)))) = true) by (vm_compute; reflexivity).
      rewrite forallb_forall in Hall. specialize (Hall kw). rewrite Hm in Hall. discriminate Hall. apply vals_In. eauto.
  - exists 2, (set_of_list [7; 9]). split; [apply elts_opt_inj|]; vm_compute; reflexivity.
Qed.

(** ** Topic index *)
Definition r_eval (e d c : Z) : evres := if c =? 0 then Exc else if e <=? c then Truthy else Falsy.
Definition r_thist : list (top Z Z Z) :=
  [TUnindex big; TAdd (filt_new true 1 5); TAdd (filt_new true 2 8); TIndex 1 9; TIndex big 9; TIndex 2 6; TUnindex big; TUnindex 2; TIndex 3 8].

(** C77: a topic index is as if the calls about ids that do not fit had not been made. *)
Theorem C77_topic_contents : forall (fits : Z -> bool) (I : Type) (OI : Ord I) (E C : Type) (eval : E -> Z -> C -> evres) (h : list (top I E C)),
  rt_run fits eval h = t_run eval (t_fitting fits h).
Proof. exact @topic_run. Qed.
Print Assumptions C77_topic_contents.
(** C77: index_doc does not even raise when the id does not fit (unless there is a filter
    of the abstract class); unindex_doc does, if there is any filter.  Other calls raise
    what they would with all integers in range. *)
Theorem C77_topic_index : forall (I : Type) (OI : Ord I) (E C : Type) (fits : Z -> bool) (eval : E -> Z -> C -> evres) (h : list (top I E C)) d c,
  fits d = false ->
  snd (rt_step fits eval (rt_run fits eval h) (TIndex d c)) =
    if forallb f_python (vals (rt_run fits eval h)) then Ok tt else Raise NotImplementedError.
Proof. exact @topic_index_unfit. Qed.
Print Assumptions C77_topic_index.
Theorem C77_topic_unindex : forall (I : Type) (OI : Ord I) (E C : Type) (fits : Z -> bool) (eval : E -> Z -> C -> evres) (h : list (top I E C)) d,
  fits d = false ->
  snd (rt_step fits eval (rt_run fits eval h) (TUnindex d)) = if is_empty (rt_run fits eval h) then Ok tt else Raise TypeError.
Proof. exact @topic_unindex_unfit. Qed.
Print Assumptions C77_topic_unindex.
Theorem C77_topic_other : forall (I : Type) (OI : Ord I) (E C : Type) (fits : Z -> bool) (eval : E -> Z -> C -> evres) (h : list (top I E C)) o,
  match o with TIndex d _ | TUnindex d => fits d = true | _ => True end ->
  snd (rt_step fits eval (rt_run fits eval h) o) = snd (t_step eval (t_run eval (t_fitting fits h)) o).
Proof. exact @topic_fit. Qed.
Print Assumptions C77_topic_other.
Example C77_topic_ex :
  map (fun p => (fst p, selems (f_ids (snd p)))) (elts (rt_run fits32 r_eval r_thist)) = [(1, [1; 3]); (2, [1; 3])] /\
  snd (rt_step fits32 r_eval (rt_run fits32 r_eval r_thist) (TIndex big 9)) = Ok tt /\
  snd (rt_step fits32 r_eval (rt_run fits32 r_eval r_thist) (TUnindex big)) = Raise TypeError /\
  snd (rt_step fits32 r_eval (rt_run fits32 r_eval r_thist) (TUnindex 3)) = Ok tt.
Proof. vm_compute. repeat split; reflexivity. Qed.
