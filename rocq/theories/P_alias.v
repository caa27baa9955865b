(** * Property C74: queries change nothing (text/textindex.py, cosineindex.py, setops.py)

    [o_apply] (M_alias.v) is [TextIndex.apply] with object identity: it gives the index
    after the query, and the object returned, which is [Own] when it was made for the
    query and [Posting wid] when it is a BTree of the index.  [answer] is what the object
    contains, [apply] (M_textindex.v) the model without identity. *)
From Coq Require Import Reals.Rdefinitions.
From Verif Require Import Text S_alias S_textapi S_score M_alias M_textindex L_alias L_quiet L_unit L_textex RArith IEEE L_ieee SMap Ord.
From Flocq Require Import IEEE754.BinarySingleNaN.
Open Scope string_scope.
Open Scope list_scope.
Open Scope Z_scope.

(** C74: a query on an Okapi index, in any state and any arithmetic, leaves the index as it
    is and returns an object nobody else has, which contains what [apply] says.  [sw] is
    either version of [_search_wids]. *)
Theorem C74_okapi : forall F (AF : Arith F) sw read write space upper qpipeline pipeline
  (query_weight : sys Z -> list ltext -> res F) s query start count,
  let r := o_apply read write space upper qpipeline pipeline (okapi_objs sw) query_weight s query in
  fst r = s /\ private_answer (snd r) /\
  answer read (six (fst r)) (snd r) = apply space upper qpipeline pipeline sw query_weight s query start count.
Proof. exact @okapi_quiet. Qed.
Print Assumptions C74_okapi.
(** So do the three searches of the index itself. *)
Theorem C74_okapi_searches : forall F (AF : Arith F) sw read pipeline s,
  (forall t o, o_search read (six s) pipeline (okapi_objs (F := F) sw) (slx s) t = Ok (Some o) -> private o) /\
  (forall t o, o_search_phrase read (six s) pipeline (okapi_objs sw) (slx s) t = Ok o -> private o) /\
  (forall t o, o_search_glob read (six s) (okapi_objs sw) (slx s) t = Ok o -> private o).
Proof. exact @okapi_searches_private. Qed.
Print Assumptions C74_okapi_searches.
(** In a history of updates and queries the queries might as well be left out. *)
Theorem C74_okapi_history : forall F (AF : Arith F) sw read write space upper qpipeline pipeline
  (query_weight : sys Z -> list ltext -> res F) evs,
  q_run (op_step pipeline (okapi_index_doc pipeline) okapi_unindex_doc)
    (fun s q => fst (o_apply read write space upper qpipeline pipeline (okapi_objs sw) query_weight s q)) evs (mkSys lex_new ix_new) =
  okapi_run pipeline (updates evs).
Proof. exact @okapi_events. Qed.
Print Assumptions C74_okapi_history.

(** The cosine index: the answer is always that of [apply]; ... *)
Theorem C74_cosine_answer : forall F (AF : Arith F) space upper qpipeline pipeline s query start count,
  let r := o_apply cos_read cos_write space upper qpipeline pipeline cos_objs (cos_query_weight (F := F) pipeline) s query in
  answer cos_read (six (fst r)) (snd r) =
    apply space upper qpipeline pipeline cos_search_wids (cos_query_weight pipeline) s query start count.
Proof. exact @cos_answer. Qed.
Print Assumptions C74_cosine_answer.
(** ... the index does not change, and the object is private, if no word has a weight of
    exactly 1; ... *)
Theorem C74_cosine : forall F (AF : Arith F), SafeArith F -> SoundEq F -> forall space upper qpipeline pipeline h query,
  history_ok pipeline h ->
  (forall w, In w (vocabulary (docs_of pipeline h)) -> feqb (idf (F := F) (docs_of pipeline h) w) f1 = false) ->
  let r := o_apply cos_read cos_write space upper qpipeline pipeline cos_objs (cos_query_weight (F := F) pipeline)
             (cos_state pipeline h) query in
  fst r = cos_state pipeline h /\ private_answer (snd r).
Proof. exact @reached_quiet. Qed.
Print Assumptions C74_cosine.
Example C74_cosine_ex :
  let h := [TIndex 1 (TxStr (txt "brown fox")); TIndex 2 (TxStr (txt "dog")); TIndex 3 (TxStr (txt "zebra"))] in
  history_ok ascii_pipeline h /\
  forall w, In w (vocabulary (docs_of ascii_pipeline h)) -> feqb (idf (F := Z) (docs_of ascii_pipeline h) w) f1 = false.
Proof.
  cbv zeta. split; [apply check_history_ok; vm_compute; reflexivity|]. intros w Hw. apply negb_true_iff. revert w Hw.
  apply forallb_forall. vm_compute. reflexivity.
Qed.
(** ... in exact arithmetic no word ever has, in no state at all: log(1 + N/n) is 1 only if
    N/n is e - 1, and e is irrational. *)
Theorem C74_real : forall space upper qpipeline pipeline (s : sys R) query,
  let r := o_apply cos_read cos_write space upper qpipeline pipeline cos_objs (cos_query_weight (F := R) pipeline) s query in
  fst r = s /\ private_answer (snd r).
Proof. intros space upper qp p s query. exact (cos_quiet space upper qp p s query (real_no_unit s)). Qed.
Print Assumptions C74_real.
Theorem C74_real_searches : forall pipeline (s : sys R),
  (forall t o, o_search cos_read (six s) pipeline cos_objs (slx s) t = Ok (Some o) -> private o) /\
  (forall t o, o_search_phrase cos_read (six s) pipeline cos_objs (slx s) t = Ok o -> private o) /\
  (forall t o, o_search_glob cos_read (six s) cos_objs (slx s) t = Ok o -> private o).
Proof. intros p s. exact (cos_searches_private p s (real_no_unit s)). Qed.
Print Assumptions C74_real_searches.
Theorem C74_real_history : forall space upper qpipeline pipeline evs,
  q_run (op_step pipeline (cos_index_doc pipeline) base_unindex_doc)
    (fun s q => fst (o_apply cos_read cos_write space upper qpipeline pipeline cos_objs (cos_query_weight (F := R) pipeline) s q))
    evs (mkSys lex_new ix_new) =
  cos_run pipeline (updates evs).
Proof. exact real_events. Qed.
Print Assumptions C74_real_history.
(** But with numbers that are rounded it can happen: with the correctly rounded logarithm
    a word in 119696244 of 205671881 documents has weight 1.0, the query "ab?cd" gets the
    BTree of the word "abxcd" itself, and divides its items by the weight of the query.
    Afterwards a search for that word finds other scores. *)
Theorem C74_rounded_refuted : forall ln, rounded_ln ln -> sane_ln ln ->
  exists pipeline h query t, history_ok pipeline h /\
  let s := cos_state (AF := Arith_b64 ln) pipeline h in
  let s' := fst (o_apply (AF := Arith_b64 ln) cos_read (cos_write (AF := Arith_b64 ln)) ascii_space ascii_upper pipeline pipeline
    (cos_objs (AF := Arith_b64 ln)) (cos_query_weight (AF := Arith_b64 ln) pipeline) s query) in
  exists m m' d v v',
    search (AF := Arith_b64 ln) pipeline (cos_search_wids (AF := Arith_b64 ln)) s t = Ok (Some m) /\
    search (AF := Arith_b64 ln) pipeline (cos_search_wids (AF := Arith_b64 ln)) s' t = Ok (Some m') /\
    get m d = Some v /\ get m' d = Some v' /\ Beqb v v' = false.
Proof. exact unit_refuted. Qed.
Print Assumptions C74_rounded_refuted.
Example C74_rounded_ex : rounded_ln b64_ln /\ sane_ln b64_ln.
Proof. exact (conj b64_ln_rounded b64_ln_sane). Qed.
