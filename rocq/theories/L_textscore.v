(** * Lemmas about the normalised scores of text queries, and examples *)
From Coq Require Import Reals Lra.
From Verif Require Import Text L_textapi L_costext L_weight S_lexicon L_lexicon L_split M_tree S_tree L_query L_tree
  S_score S_text S_textapi S_textindex M_textindex L_found L_rscore L_textindex RArith L_textex M_split S_split S_parser Arith SMap Ord.
Open Scope string_scope.
Open Scope list_scope.
Open Scope Z_scope.

Lemma div_range (v q : R) : (0 < v <= q)%R -> (0 < fdiv v (norm q) <= 1)%R.
Proof.
  intros H. unfold norm. assert (E : feqb q f0 = false) by (apply feqb_R_false; rarith; lra). rewrite E. rarith.
  rewrite Rmult_1_r. split; [apply Rdiv_pos; lra|]. apply (Rmult_le_reg_r q); [lra|]. unfold Rdiv. rewrite Rmult_assoc, Rinv_l by lra. lra.
Qed.
Section Ranges.
  Variable space : char -> bool.
  Variable upper : str -> str.
  Variable qp pipeline : list elem.
  Variable h : list top.
  Hypothesis hyphen : space 45 = false.
  Hypothesis H : history_ok pipeline h.
  Lemma okapi_apply_range (K1 B : R) : (0 <= K1)%R -> (0 <= B <= 1)%R -> texts_small pipeline h ->
    forall query start count n ign m d v, parseQuery space upper (fun t => parseTerms qp (TxStr t)) isGlob query = POk (n, ign) ->
    (forall p, In (NGlob p) (leaves n) -> good_glob p /\ no_newline (slx (okapi_state pipeline h))) ->
    (forall p, ~ In (NGlob p) (positive_leaves n)) ->
    apply space upper qp pipeline (python_search_wids K1 B) (okapi_query_weight pipeline K1) (okapi_state pipeline h) query start count = POk (Some m) ->
    get m d = Some v -> (0 < v <= 1)%R.
  Proof.
    intros HK HB Hs query start count n ign m d v Hp Hg Hpos Ha Hv.
    pose proof (OkapiSafe_R K1 B HK HB) as OF.
    destruct (apply_form space upper qp pipeline _ _ _ _ hyphen (okapi_search_ok K1 B pipeline h H Hs) (okapi_qw K1 pipeline h H)
      query start count n ign Hp Hg) as (r & q & Er & Eq & Ea).
    rewrite Ha in Ea. injection Ea as Ea. destruct r as [m0|]; [|discriminate]. injection Ea as ->.
    unfold divided in Hv. rewrite get_mmap in Hv. destruct (get m0 d) as [v0|] eqn:Ev; [|discriminate]. injection Hv as <-.
    apply div_range. exact (okapi_tree_bound K1 B HK HB pipeline h n m0 d v0 q H Hs (query_executable space upper _ _ hyphen query n ign Hp) Hpos Er Eq Ev).
  Qed.
  Lemma cos_apply_range : forall query start count n ign m d v, parseQuery space upper (fun t => parseTerms qp (TxStr t)) isGlob query = POk (n, ign) ->
    (forall p, In (NGlob p) (leaves n) -> good_glob p /\ no_newline (slx (cos_state (F := R) pipeline h))) ->
    (forall p, ~ In (NGlob p) (positive_leaves n)) ->
    NoDup (flat_map (fun t => text_words pipeline (term_text t)) (terms n)) ->
    apply space upper qp pipeline cos_search_wids (cos_query_weight pipeline) (cos_state (F := R) pipeline h) query start count = POk (Some m) ->
    get m d = Some v -> (0 < v <= 1)%R.
  Proof.
    intros query start count n ign m d v Hp Hg Hpos Hnd Ha Hv.
    destruct (apply_form space upper qp pipeline _ _ _ _ hyphen (cos_search_ok pipeline h H) (cos_qw (F := R) pipeline h H)
      query start count n ign Hp Hg) as (r & q & Er & Eq & Ea).
    rewrite Ha in Ea. injection Ea as Ea. destruct r as [m0|]; [|discriminate]. injection Ea as ->.
    unfold divided in Hv. rewrite get_mmap in Hv. destruct (get m0 d) as [v0|] eqn:Ev; [|discriminate]. injection Hv as <-.
    apply div_range. exact (cos_tree_bound pipeline h n m0 d v0 q H (query_executable space upper _ _ hyphen query n ign Hp) Hpos Hnd Er Eq Ev).
  Qed.
End Ranges.

(** ** ASCII meets the hypotheses *)
Lemma ascii_no_meta c : ascii_word c = true -> ~ In c re_meta.
Proof. unfold ascii_word, re_meta. cbn [In]. intros H. lia. Qed.
Lemma ascii_ordinary c : ascii_word c = true -> ordinary ascii_space c.
Proof. unfold ascii_word, ordinary, ascii_space. intros H. splits; lia. Qed.
Lemma ascii_lower_plain : lower_plain ascii_lower.
Proof.
  constructor.
  - unfold ascii_lower. intros s H Hin. apply in_map_iff in Hin as (c & E & Hc). apply H. destruct ((65 <=? c) && (c <=? 90)) eqn:Eb; [lia|congruence].
  - unfold ascii_lower. intros s H c Hc. apply in_map_iff in Hc as (x & E & Hx). specialize (H x Hx). unfold re_meta in *. cbn [In] in *.
    destruct ((65 <=? x) && (x <=? 90)) eqn:Eb; lia.
  - intros a c b Hne Hp Hc. unfold ascii_lower. rewrite map_app. cbn [map].
    set (f := fun c => if (65 <=? c) && (c <=? 90) then c + 32 else c).
    exists (map f a), (map f b). splits.
    + do 2 f_equal. unfold f. destruct Hc as [->| ->]; reflexivity.
    + destruct a; [contradiction|discriminate].
    + intros x Hx. apply in_map_iff in Hx as (y & E & Hy). specialize (Hp y Hy). unfold re_meta, f in *. cbn [In] in *.
      destruct ((65 <=? y) && (y <=? 90)) eqn:Eb; lia.
Qed.

(** ** U+0130: its lower case is 'i' followed by U+0307, which is not a word character *)
Definition dot_word (c : char) : bool := ascii_word c || (c =? 304).
Definition dot_lower (s : str) : str := flat_map (fun c => if c =? 304 then [105; 775] else ascii_lower [c]) s.
Definition dot_pipeline : list elem := default_pipeline dot_word dot_lower.
Definition dot_hist : list top := [TIndex 1 (TxStr [304])].
Lemma dot_not_found {F} {AF : Arith F} (K1 B : F) : exists m,
  apply ascii_space ascii_upper dot_pipeline dot_pipeline (python_search_wids K1 B) (okapi_query_weight dot_pipeline K1)
    (okapi_state dot_pipeline dot_hist) [304] 0 None = POk (Some m) /\ mem 1 m = false.
Proof. eexists. split; vm_compute; reflexivity. Qed.
