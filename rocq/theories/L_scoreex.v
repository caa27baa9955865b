(** * Lemmas for the theorems about query weights and Okapi scores, and counterexamples *)
From Coq Require Import Reals Lra Permutation.
From Verif Require Import Text L_lexicon L_setops L_baseindex L_textsys L_okapi L_cosine L_search L_okasearch L_cossearch
  L_textapi L_costext M_tree S_tree L_query L_tree L_treeex S_score S_text S_textapi S_textindex M_textindex L_weight L_found L_rscore
  L_textex L_searchex Arith RArith SMap Ord.

(** ** No division by zero *)
Lemma glob_loop_ids prog prefix items i : In i (glob_loop prog prefix items) -> In i (map snd items).
Proof.
  induction items as [|[w j] items IH]; cbn [glob_loop map snd]; [intros []|].
  destruct (startswith w prefix); [|intros []].
  destruct (re_match prog w).
  - intros [<-|H]; [left; reflexivity|right; exact (IH H)].
  - intros H. right. exact (IH H).
Qed.
Lemma glob_ids_known p lx wids : globToWordIds p lx = Ok wids -> forall i, In i wids -> exists w, get (lwids lx) w = Some i.
Proof.
  unfold globToWordIds, globToWordIds_with. destruct (split_prefix p) as [prefix rest]. destruct rest as [|c rest].
  - intros [= <-] i. unfold get_wid. destruct (get (lwids lx) prefix) as [j|] eqn:E; cbn; [|intros []].
    destruct (j =? 0)%Z; [intros []|]. intros [<-|[]]. eauto.
  - destruct prefix as [|x prefix]; [discriminate|]. destruct (re_compile _) as [prog|e]; [|discriminate].
    cbn [bind]. intros [= <-] i Hi. apply glob_loop_ids in Hi. apply in_map_iff in Hi as ([w j] & <- & Hw).
    apply filter_In in Hw as [Hw _]. exists w. apply get_In. exact Hw.
Qed.

Lemma re_compile_no_zero p : re_compile p <> Raise ZeroDivisionError.
Proof.
  unfold re_compile. assert (H : forall n s, (length s <= n)%nat -> forall cur rep br, re_parse s cur rep br <> Raise ZeroDivisionError).
  { induction n as [|n IH]; intros [|c s] Hl cur rep br; cbn [length] in Hl; try lia; cbn [re_parse]; try discriminate.
    repeat match goal with |- context [if ?b then _ else _] => destruct b end;
      try (apply IH; lia); try discriminate.
    - destruct cur; [discriminate|]. apply IH; lia.
    - destruct cur; [discriminate|]. apply IH; lia.
    - destruct cur; [discriminate|]. apply IH; lia.
    - destruct s as [|c' s]; [discriminate|]. cbn [length] in Hl. destruct (is_ascii_alnum c'); [discriminate|]. apply IH; lia. }
  apply (H (length p)). lia.
Qed.

Section Total.
  Context {F : Type} {AF : Arith F} {SF : SafeArith F}.
  Variables K1 B : F.
  Context {OF : OkapiSafe K1 B}.
  Variable pipeline : list elem.
  Local Notation st := (okapi_state pipeline).

  Lemma okapi_glob_total h p : history_ok pipeline h -> texts_small pipeline h ->
    match globToWordIds p (slx (st h)) with
    | Raise e => search_glob (python_search_wids K1 B) (st h) p = Raise e
    | Ok _ => exists m, search_glob (python_search_wids K1 B) (st h) p = Ok m
    end.
  Proof.
    intros H Hs. destruct (globToWordIds p (slx (st h))) as [wids|e] eqn:Eg.
    - destruct (okapi_state_ok pipeline h H) as (_ & _ & Hi & _).
      destruct (search_glob_docs f32Z okapi_fr okapi_keys (python_search_wids K1 B) (st h) (docs_of pipeline h) Hi _ _
        (oka_wids_ok K1 B _ _ Hi (okapi_total_pos pipeline h H Hs)) (oka_keys K1 B _ _ Hi) p
        (fun w => exists i, get (lwids (slx (st h))) w = Some i /\ In i wids) wids Eg) as (m & Em & _); [|eauto].
      intros i. split.
      + intros Hin. destruct (glob_ids_known _ _ _ Eg i Hin) as (w & Ew). eauto.
      + intros (w & Ew & j & Ej & Hj). congruence.
    - unfold search_glob. rewrite Eg. reflexivity.
  Qed.
  Lemma okapi_total_searches h : history_ok pipeline h -> texts_small pipeline h ->
    (forall t, exists r, search pipeline (python_search_wids K1 B) (st h) t = Ok r) /\
    (forall t, exists r, search_phrase pipeline (python_search_wids K1 B) (st h) t = Ok r) /\
    (forall p, search_glob (python_search_wids K1 B) (st h) p <> Raise ZeroDivisionError) /\
    (forall ts, exists v, okapi_query_weight pipeline K1 (st h) ts = Ok v).
  Proof.
    intros H Hs. splits.
    - intros t. destruct (okapi_search_docs K1 B pipeline h t H Hs) as [H1 H2].
      destruct (text_words pipeline t) as [|w l]; [exists None; exact (H1 eq_refl)|].
      destruct H2 as (m & Em & _); [discriminate|eauto].
    - intros t. destruct (okapi_phrase_sound K1 B pipeline h t H Hs) as (m & Em & _). eauto.
    - intros p E. pose proof (okapi_glob_total h p H Hs) as Hg. destruct (globToWordIds p (slx (st h))) as [wids|e] eqn:Eg.
      + destruct Hg as (m & Em). congruence.
      + rewrite Hg in E. injection E as ->. unfold globToWordIds, globToWordIds_with in Eg.
        destruct (split_prefix p) as [[|x prefix] [|c rest]]; try discriminate.
        destruct (re_compile _) as [prog|e] eqn:Er; [discriminate|]. cbn [bind] in Eg. injection Eg as ->.
        exact (re_compile_no_zero _ Er).
    - intros ts. eexists. apply (okapi_weight_ok pipeline K1 h ts H).
  Qed.
End Total.

(** ** Term frequencies and idf *)
Section TF.
  Variables K1 B : R.
  Hypothesis HK : (0 < K1)%R.
  Hypothesis HB : (0 <= B <= 1)%R.
  Lemma okapi_tf_R mean len f : (0 < mean)%R -> 1 <= len -> 1 <= f ->
    okapi_tf K1 B mean len f = Ok (bm25_tf K1 B mean len f).
  Proof.
    intros Hm Hl Hf. unfold okapi_tf, py_div. replace (feqb mean f0) with false by (symmetry; apply feqb_R_false; rarith; lra).
    cbn [bind]. rewrite (proj2 (feqb_R_false _ _)); [reflexivity|].
    rarith. pose proof (IZR_ge1 f Hf). pose proof (len_weight_pos B HB mean len Hm Hl) as HL.
    assert (0 < K1 * (1 - B + B * IZR len / mean))%R by (apply Rmult_lt_0_compat; lra). lra.
  Qed.
  Lemma okapi_tf_range mean len f : (0 < mean)%R -> 1 <= len -> 1 <= f ->
    exists v, okapi_tf K1 B mean len f = Ok v /\ (0 < v < K1 + 1)%R.
  Proof.
    intros Hm Hl Hf. eexists. split; [exact (okapi_tf_R mean len f Hm Hl Hf)|]. split.
    - apply (bm25_tf_bounds K1 B ltac:(lra) HB mean len f Hm Hl Hf).
    - exact (bm25_tf_strict K1 B HB mean len f HK Hm Hl Hf).
  Qed.
  Lemma okapi_tf_mono mean len f f' v v' : (0 < mean)%R -> 1 <= len -> 1 <= f < f' ->
    okapi_tf K1 B mean len f = Ok v -> okapi_tf K1 B mean len f' = Ok v' -> (v < v')%R.
  Proof.
    intros Hm Hl [Hf Hff]. rewrite !okapi_tf_R by (assumption || lia). intros [= <-] [= <-].
    exact (bm25_tf_increasing K1 B (Rlt_le _ _ HK) HB mean len f f' HK Hm Hl (conj Hf Hff)).
  Qed.
  Lemma okapi_tf_anti mean len len' f v v' : (0 < B)%R -> (0 < mean)%R -> 1 <= len < len' -> 1 <= f ->
    okapi_tf K1 B mean len f = Ok v -> okapi_tf K1 B mean len' f = Ok v' -> (v' < v)%R.
  Proof.
    intros HB' Hm [Hl Hll] Hf. rewrite !okapi_tf_R by (assumption || lia). intros [= <-] [= <-].
    exact (bm25_tf_decreasing K1 B HB mean len len' f HK HB' Hm (conj Hl Hll) Hf).
  Qed.
End TF.
Lemma idf_R (n N : Z) : 1 <= n -> 1 <= N -> exists v, inverse_doc_frequency n (fofZ N) = Ok v /\ (0 < v)%R.
Proof.
  intros Hn HN. unfold inverse_doc_frequency, py_div, py_log. pose proof (IZR_ge1 n Hn). pose proof (IZR_ge1 N HN).
  rewrite (proj2 (feqb_R_false _ _)) by (rarith; lra). cbn [bind].
  assert (0 < IZR N / IZR n)%R by (apply Rdiv_pos; lra).
  rewrite (proj2 (fleb_R_false _ _)) by (rarith; lra). eexists. split; [reflexivity|]. rarith. apply ln_pos. lra.
Qed.
Lemma mean_R pipeline h w : history_ok pipeline h -> texts_small pipeline h -> In w (vocabulary (docs_of pipeline h)) ->
  exists v : R, mean_doc_len (six (okapi_state pipeline h)) = Ok v /\ (0 < v)%R.
Proof.
  intros H Hs Hw. unfold mean_doc_len, py_div. pose proof (okapi_total_pos pipeline h H Hs w Hw) as Ht.
  destruct (okapi_state_ok pipeline h H) as (_ & _ & Hi & _).
  assert (Hc : documentCount (six (okapi_state pipeline h)) = Zsize (docs_of pipeline h)) by exact (proj1 (counts_D f32Z okapi_fr okapi_keys _ _ Hi)).
  rewrite Hc. pose proof (docs_nonempty _ _ Hw) as Hn. pose proof (IZR_ge1 _ Hn). pose proof (IZR_ge1 _ Ht).
  rewrite (proj2 (feqb_R_false _ _)) by (rarith; lra). eexists. split; [reflexivity|]. rarith. apply Rdiv_pos; lra.
Qed.

(** ** A history with a text of more than 2^24 words *)
Definition big_hist (l : list str) : list top := [TIndex 1 (TxList l); TUnindex 1; TIndex 2 (TxList [txt "a"])].
Lemma big_history_ok l : (forall x, In x l -> x = txt "a") -> history_ok id_pipe (big_hist l).
Proof.
  intros Hall. split; [intros n [H|[H|[]]]; discriminate|]. intros i Hi.
  assert (Hn : no_drift (lex_hist (big_hist l))) by (intros n [H|[H|[]]]; discriminate).
  pose proof (lex_run_linv id_pipe (lex_hist (big_hist l)) Hn) as (H1 & H2 & H3 & H4).
  set (ds := distinct (words_of id_pipe (lex_hist (big_hist l)))) in *.
  unfold lex_wids in Hi. apply keys_In in Hi as (w & Hw). apply H4 in Hw as [Hi Hw].
  assert (Hd : forall x, In x ds -> x = txt "a").
  { intros x Hx. apply (proj1 (distinct_In _ _)) in Hx. cbn [lex_hist big_hist flat_map words_of app] in Hx.
    apply in_app_or in Hx as [Hx|[<-|[]]]; [exact (Hall _ Hx)|reflexivity]. }
  assert (Hl : (length ds <= 1)%nat).
  { destruct ds as [|x [|y ds]]; cbn [length]; try lia. exfalso. inversion H1 as [|? ? Hx _]; subst.
    apply Hx. left. rewrite (Hd x), (Hd y); cbn; auto. }
  assert (Hlt : (Z.to_nat (i - 1) < length ds)%nat) by (apply nth_error_Some; congruence). lia.
Qed.
Lemma big_total l : Zlen l = 2 ^ 24 + 3 -> okapi_total id_pipe (big_hist l) = 0.
Proof.
  intros Hl. unfold okapi_total, gfold. cbn [big_hist fold_left fst snd okapi_g docs_step].
  change (text_words id_pipe (TxList l)) with l. change (text_words id_pipe (TxList [txt "a"])) with [txt "a"].
  unfold f32_at. rewrite get_empty, get_put_same, get_del_other by lia. rewrite get_put_other, get_empty by lia.
  rewrite Hl. reflexivity.
Qed.
Lemma big_docs l : docs_of id_pipe (big_hist l) = put 2 [txt "a"] empty.
Proof.
  unfold docs_of. cbn [big_hist fold_left docs_step]. change (text_words id_pipe (TxList [txt "a"])) with [txt "a"].
  f_equal. apply smap_ext. intros d. rewrite get_del, get_put, get_empty. destruct (eqb d 1); reflexivity.
Qed.
Lemma big_raises l (K1 B : R) : (forall x, In x l -> x = txt "a") -> Zlen l = 2 ^ 24 + 3 ->
  search id_pipe (python_search_wids K1 B) (okapi_state id_pipe (big_hist l)) (TxStr (txt "a")) = Raise ZeroDivisionError.
Proof.
  intros Hall Hl. pose proof (big_history_ok l Hall) as H.
  destruct (okapi_state_ok id_pipe _ H) as (_ & _ & Hi & Ht). rewrite (big_total l Hl) in Ht.
  set (s := okapi_state id_pipe (big_hist l)) in *. rewrite big_docs in Hi. set (D := put 2 [txt "a"] empty) in *.
  assert (Hd : get D 2 = Some [txt "a"]) by apply get_put_same.
  assert (Hw : In (txt "a") (vocabulary D)) by (apply vocabulary_In; exists 2, [txt "a"]; split; [exact Hd|left; reflexivity]).
  unfold search, termToWordIds. change (run_pipeline id_pipe (text2list (TxStr (txt "a")))) with [txt "a"]. cbn [map].
  change [get_wid (slx s) (txt "a")] with (ids (slx s) [txt "a"]). rewrite (remove_oov_ids f32Z okapi_fr okapi_keys s D Hi).
  replace (inv_words D [txt "a"]) with [txt "a"].
  2:{ unfold inv_words. cbn [filter]. rewrite (proj2 (existsb_eqb_In _ _) Hw). reflexivity. }
  cbn [ids map]. unfold python_search_wids, mean_doc_len, py_div. rewrite Ht, (docs_count s D Hi).
  change (Zsize D) with 1. rewrite (proj2 (feqb_R_false _ _)) by (rarith; lra). cbn [bind mapM].
  unfold py_search_wid, item. destruct (posting_item f32Z okapi_fr okapi_keys s D Hi _ Hw) as (p & Ep & Hp). rewrite Ep. cbn [bind].
  rewrite Hp, (posting_size f32Z okapi_fr okapi_keys s D Hi), (idf_ok D _ _ Hw (docs_count s D Hi)). cbn [bind].
  assert (Hm : mem 2 (posting_of s (txt "a")) = true).
  { apply (posting_mem f32Z okapi_fr okapi_keys s D _ 2 Hi). exists [txt "a"]. split; [exact Hd|left; reflexivity]. }
  apply mem_get in Hm as [f Hf]. apply get_In in Hf.
  destruct (elts (posting_of s (txt "a"))) as [|[d f'] items] eqn:Ee; [destruct Hf|].
  assert (Hd' : mem d (posting_of s (txt "a")) = true).
  { apply mem_get. exists f'. apply get_In. rewrite Ee. left. reflexivity. }
  apply (posting_mem f32Z okapi_fr okapi_keys s D _ d Hi) in Hd' as (ws & Ed & _).
  cbn [py_score]. unfold item. rewrite (docweight_value s D Hi d ws Ed). cbn [bind]. unfold okapi_tf, py_div.
  rewrite (proj2 (feqb_eq _ _)) by (rarith; field). reflexivity.
Qed.
Lemma big_text_exists : exists l : list str, (forall x, In x l -> x = txt "a") /\ Zlen l = 2 ^ 24 + 3.
Proof.
  exists (repeat (txt "a") (Z.to_nat (2 ^ 24 + 3))). split; [intros x; apply repeat_spec|].
  unfold Zlen. rewrite repeat_length. apply Z2Nat.id. discriminate.
Qed.

(** ** The score of a glob exceeds its weight *)
Local Open Scope R_scope.
Lemma ln2_bound : 1 / 2 < ln 2.
Proof.
  assert (H : 1 < ln 4).
  { rewrite <- (ln_exp 1). apply ln_increasing; [apply exp_pos|]. pose proof exp_le_3. lra. }
  replace 4 with (2 * 2) in H by lra. rewrite ln_mult in H by lra. lra.
Qed.
Definition glob_hist : list top := [TIndex 1 (TxStr (txt "abc abd"))].
Lemma glob_hist_ok : history_ok ascii_pipeline glob_hist.
Proof. apply check_history_ok. vm_compute. reflexivity. Qed.
Lemma glob_hist_small : texts_small ascii_pipeline glob_hist.
Proof. apply check_small_ok. vm_compute. reflexivity. Qed.
Lemma glob_exceeds : exists m v,
  execute ascii_pipeline (python_search_wids 1.2 0.75) (okapi_state ascii_pipeline glob_hist) (NGlob (txt "ab*")) = Ok (Some m) /\
  okapi_query_weight ascii_pipeline 1.2 (okapi_state ascii_pipeline glob_hist) (map term_text (terms (NGlob (txt "ab*")))) = Ok 0 /\
  get m 1%Z = Some v /\ 1 < v.
Proof.
  assert (Hg : exists m q, search_glob (python_search_wids 1.2 0.75) (okapi_state ascii_pipeline glob_hist) (txt "ab*") = Ok m /\
    NoDup q /\ (forall w, In w q <-> In w (lex_words (slx (okapi_state ascii_pipeline glob_hist))) /\ glob_match (txt "ab*") w) /\
    forall d ws, get (docs_of ascii_pipeline glob_hist) d = Some ws -> get m d = if existsb (contains ws) q
        then Some (words_score (okapi_c 1.2 0.75 ascii_pipeline glob_hist) q ws) else None).
  { pose proof OkapiSafe_default. apply (okapi_glob_scores 1.2 0.75 ascii_pipeline glob_hist (txt "ab") chr_star []).
    - exact glob_hist_ok.
    - exact glob_hist_small.
    - discriminate.
    - intros c [<-|[<-|[]]]; cbn; intuition discriminate.
    - auto.
    - apply check_newline_ok. vm_compute. reflexivity. }
  destruct Hg as (m & q & Em & Hn & Hq & Hm).
  assert (HP : Permutation q [txt "abc"; txt "abd"]).
  { apply NoDup_Permutation; [exact Hn|repeat constructor; cbn; intuition discriminate|]. intros w. rewrite Hq.
    replace (lex_words (slx (okapi_state ascii_pipeline glob_hist))) with [txt "abc"; txt "abd"] by (vm_compute; reflexivity).
    split; [tauto|]. intros H. split; [exact H|].
    destruct H as [<-|[<-|[]]]; (eexists; split; [reflexivity|]); (eexists; split; [reflexivity|]); cbn;
      [exists [99%Z], []|exists [100%Z], []]; auto. }
  assert (Hd : get (docs_of ascii_pipeline glob_hist) 1%Z = Some [txt "abc"; txt "abd"]) by (vm_compute; reflexivity).
  specialize (Hm 1%Z _ Hd).
  assert (Hc : existsb (contains [txt "abc"; txt "abd"]) q = true).
  { apply existsb_exists. exists (txt "abc"). split; [apply (Permutation_in _ (Permutation_sym HP)); left; reflexivity|reflexivity]. }
  rewrite Hc in Hm.
  exists m, (words_score (okapi_c 1.2 0.75 ascii_pipeline glob_hist) q [txt "abc"; txt "abd"]). splits.
  - unfold execute. cbn [executeQuery]. rewrite Em. reflexivity.
  - rewrite (okapi_weight_exact ascii_pipeline 1.2 glob_hist _ glob_hist_ok).
    replace (filter (contains (vocabulary (docs_of ascii_pipeline glob_hist)))
      (flat_map (text_words ascii_pipeline) (map term_text (terms (NGlob (txt "ab*")))))) with (@nil str) by (vm_compute; reflexivity).
    unfold okapi_weight.
    replace (filter (contains (vocabulary (docs_of ascii_pipeline glob_hist)))
      (flat_map (text_words ascii_pipeline) (map term_text (terms (NGlob (txt "ab*")))))) with (@nil str) by (vm_compute; reflexivity).
    reflexivity.
  - exact Hm.
  - unfold words_score. rewrite (rsum_perm _ _ (Permutation_map _ (filter_perm (contains [txt "abc"; txt "abd"]) _ _ HP))).
    replace (filter (contains [txt "abc"; txt "abd"]) [txt "abc"; txt "abd"]) with [txt "abc"; txt "abd"] by reflexivity.
    cbn [map]. rewrite !rsum_cons.
    assert (Hb : forall w, In w [txt "abc"; txt "abd"] -> okapi_c 1.2 0.75 ascii_pipeline glob_hist w [txt "abc"; txt "abd"] = ln 2).
    { intros w Hw. unfold okapi_c, bm25, bm25_tf, idf.
      replace (total_words (docs_of ascii_pipeline glob_hist) + words_cleared ascii_pipeline glob_hist)%Z with 2%Z by (vm_compute; reflexivity).
      replace (Zsize (docs_of ascii_pipeline glob_hist)) with 1%Z by (vm_compute; reflexivity).
      replace (Zlen [txt "abc"; txt "abd"]) with 2%Z by reflexivity.
      replace (occurrences w [txt "abc"; txt "abd"]) with 1%Z by (destruct Hw as [<-|[<-|[]]]; reflexivity).
      replace (doc_freq (docs_of ascii_pipeline glob_hist) w) with 1%Z by (destruct Hw as [<-|[<-|[]]]; vm_compute; reflexivity).
      rarith. replace (1 + 1 / 1) with 2 by field. field. lra. }
    rewrite !Hb by (cbn; auto). pose proof ln2_bound. unfold fsum; cbn [fold_right]; rarith. lra.
Qed.

(** ** The cosine score of a repeated word exceeds its weight *)
Definition or_tree : node := NOr [NAtom (txt "fox"); NAtom (txt "fox")].
Definition or_hist : list top := [TIndex 1 (TxStr (txt "fox"))].
Lemma or_hist_ok : history_ok ascii_pipeline or_hist.
Proof. apply check_history_ok. vm_compute. reflexivity. Qed.
Lemma or_exceeds : exists m v qw,
  execute ascii_pipeline cos_search_wids (cos_state (F := R) ascii_pipeline or_hist) or_tree = Ok (Some m) /\
  cos_query_weight ascii_pipeline (cos_state (F := R) ascii_pipeline or_hist) (map term_text (terms or_tree)) = Ok qw /\
  get m 1%Z = Some v /\ 0 < qw < v.
Proof.
  assert (Hd : get (docs_of ascii_pipeline or_hist) 1%Z = Some [txt "fox"]) by (vm_compute; reflexivity).
  assert (Hc : cosine (docs_of ascii_pipeline or_hist) (txt "fox") [txt "fox"] = ln 2).
  { unfold cosine, cosine_weight, doc_norm, term_weight, idf. replace (distinct [txt "fox"]) with [txt "fox"] by reflexivity.
    replace (Zsize (docs_of ascii_pipeline or_hist)) with 1%Z by (vm_compute; reflexivity).
    replace (doc_freq (docs_of ascii_pipeline or_hist) (txt "fox")) with 1%Z by (vm_compute; reflexivity).
    cbn [map]. rewrite lsum_fsum. unfold fsum. cbn [fold_right]. replace (occurrences (txt "fox") [txt "fox"]) with 1%Z by reflexivity.
    rarith. rewrite ln_1. replace ((1 + 0) * (1 + 0) + 0) with 1 by ring. rewrite sqrt_1. replace (1 + 1 / 1) with 2 by field. field. }
  pose proof (cos_search_ok (F := R) ascii_pipeline or_hist or_hist_ok) as SO.
  pose proof (cos_scores_ok (F := R) ascii_pipeline or_hist or_hist_ok) as SC.
  destruct (proj2 (so_search _ _ _ _ SO (TxStr (txt "fox")))) as (m0 & Em0 & _); [discriminate|].
  pose proof (sc_search _ _ _ _ _ SC _ m0 1%Z _ Em0 Hd) as Hs.
  change (text_words ascii_pipeline (TxStr (txt "fox"))) with [txt "fox"] in Hs.
  change (existsb (contains [txt "fox"]) [txt "fox"]) with true in Hs. cbn iota in Hs.
  unfold words_score in Hs. change (filter (contains [txt "fox"]) [txt "fox"]) with [txt "fox"] in Hs. cbn [map] in Hs.
  rewrite Hc in Hs. unfold fsum in Hs. cbn [fold_right] in Hs.
  pose (found := fun _ : node => Some m0).
  destruct (tree_scores (fun w => search ascii_pipeline cos_search_wids (cos_state (F := R) ascii_pipeline or_hist) (TxStr w))
    (fun ws => rmap Some (search_phrase ascii_pipeline cos_search_wids (cos_state ascii_pipeline or_hist) (TxList ws)))
    (fun p => rmap Some (search_glob cos_search_wids (cos_state ascii_pipeline or_hist) p)) _ or_tree found) as (r & Er & Hr & Hv).
  - cbn. repeat split; auto; discriminate.
  - intros x [<-|[<-|[]]]; exact Em0.
  - destruct r as [m|]; [|destruct (proj1 Hr eq_refl)]. specialize (Hv m eq_refl 1%Z). unfold or_tree in Hv.
    rewrite score_or in Hv. cbn [map score score_leaf] in Hv. unfold score_leaf, found in Hv. rewrite Hs in Hv.
    cbn [existsb is_some orb] in Hv. unfold opt_sum, fsum in Hv. cbn [flat_map app fold_right] in Hv.
    do 3 eexists. split; [exact Er|]. split; [exact (cos_weight_exact ascii_pipeline or_hist _ or_hist_ok)|]. split; [exact Hv|].
    pose proof ln2_bound as Hb. unfold cos_weight.
    replace (filter (contains (vocabulary (docs_of ascii_pipeline or_hist))) (flat_map (text_words ascii_pipeline) (map term_text (terms or_tree))))
      with [txt "fox"; txt "fox"] by (vm_compute; reflexivity).
    assert (Hi : idf (docs_of ascii_pipeline or_hist) (txt "fox") = ln 2).
    { unfold idf. replace (Zsize (docs_of ascii_pipeline or_hist)) with 1%Z by (vm_compute; reflexivity).
      replace (doc_freq (docs_of ascii_pipeline or_hist) (txt "fox")) with 1%Z by (vm_compute; reflexivity).
      rarith. f_equal. field. }
    cbn [map]. rewrite Hi, lsum_fsum. unfold fsum. cbn [fold_right]. rarith.
    replace (ln 2 * ln 2 + (ln 2 * ln 2 + 0)) with (2 * (ln 2 * ln 2)) by ring.
    rewrite sqrt_mult, sqrt_square by nra. pose proof (Rlt_sqrt2_0). assert (sqrt 2 < 2).
    { rewrite <- (sqrt_square 2) at 2 by lra. apply sqrt_lt_1; lra. }
    split; [apply Rmult_lt_0_compat; lra|]. nra.
Qed.
