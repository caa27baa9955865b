(** * Lemmas about scores in real arithmetic *)
From Coq Require Import Reals Lra.
From Verif Require Import RArith L_lexicon L_baseindex L_textsys L_okasearch L_cossearch L_textapi L_costext L_weight L_found
  S_score S_text S_textapi S_textindex M_textindex Arith SMap Ord.
Local Open Scope R_scope.

Local Notation rsum := (@fsum R Arith_R).
Lemma rsum_cons x l : rsum (x :: l) = x + rsum l.
Proof. reflexivity. Qed.
Lemma rsum_nonneg l : (forall x, In x l -> 0 <= x) -> 0 <= rsum l.
Proof.
  induction l as [|x l IH]; intros H; [apply Rle_refl|]. rewrite rsum_cons.
  pose proof (H x (or_introl eq_refl)). specialize (IH (fun y Hy => H y (or_intror Hy))). lra.
Qed.
Lemma rsum_pos l : l <> [] -> (forall x, In x l -> 0 < x) -> 0 < rsum l.
Proof.
  destruct l as [|x l]; [contradiction|]. intros _ H. rewrite rsum_cons. pose proof (H x (or_introl eq_refl)).
  assert (0 <= rsum l) by (apply rsum_nonneg; intros y Hy; left; apply H; right; exact Hy). lra.
Qed.
(** a sum over fewer elements of smaller values *)
Lemma rsum_filter_le {A} (p r : A -> bool) (f g : A -> R) l :
  (forall x, In x l -> p x = true -> r x = true /\ f x <= g x) -> (forall x, In x l -> r x = true -> 0 <= g x) ->
  rsum (map f (filter p l)) <= rsum (map g (filter r l)).
Proof.
  induction l as [|x l IH]; intros H1 H2; [apply Rle_refl|]. cbn [filter].
  specialize (IH (fun y Hy => H1 y (or_intror Hy)) (fun y Hy => H2 y (or_intror Hy))).
  pose proof (H1 x (or_introl eq_refl)) as Hp. pose proof (H2 x (or_introl eq_refl)) as Hr.
  destruct (p x).
  - destruct (Hp eq_refl) as [E Hle]. rewrite E. cbn [map]. rewrite !rsum_cons. lra.
  - destruct (r x); [|exact IH]. cbn [map]. rewrite rsum_cons. specialize (Hr eq_refl). lra.
Qed.
Lemma rsum_app a b : rsum (a ++ b) = rsum a + rsum b.
Proof. exact (fsum_app a b). Qed.
Lemma rsum_perm a b : Permutation a b -> rsum a = rsum b.
Proof. apply fsum_perm. Qed.
Lemma rsum_scale (k : R) {A} (f : A -> R) l : rsum (map (fun x => k * f x) l) = k * rsum (map f l).
Proof. induction l as [|x l IH]; cbn [map]; [cbv; ring|]. rewrite !rsum_cons, IH. ring. Qed.
Lemma rsum_ext {A} (f g : A -> R) l : (forall x, In x l -> f x = g x) -> rsum (map f l) = rsum (map g l).
Proof. intros H. f_equal. apply map_ext_in. exact H. Qed.

Lemma filter_perm {A} (p : A -> bool) a b : Permutation a b -> Permutation (filter p a) (filter p b).
Proof.
  induction 1 as [|x a b H IH|x y a|a b c H1 IH1 H2 IH2]; cbn [filter].
  - constructor.
  - destruct (p x); [constructor|]; exact IH.
  - destruct (p x), (p y); try apply perm_swap; reflexivity.
  - etransitivity; eassumption.
Qed.
(** a list without repetitions is part of any list that includes it *)
Lemma nodup_part {A} (a : list A) : forall b, NoDup a -> incl a b -> exists rest, Permutation (a ++ rest) b.
Proof.
  induction a as [|x a IH]; intros b Hn Hi; [exists b; reflexivity|]. inversion Hn as [|? ? Hx Ha]; subst.
  destruct (in_split x b (Hi x (or_introl eq_refl))) as (b1 & b2 & ->).
  destruct (IH (b1 ++ b2) Ha) as (rest & HP).
  - intros y Hy. assert (Hyb : In y (b1 ++ x :: b2)) by (apply Hi; right; exact Hy).
    apply in_app_or in Hyb as [Hyb|[->|Hyb]]; [apply in_or_app; auto|contradiction|apply in_or_app; auto].
  - exists rest. cbn [app]. rewrite HP. apply Permutation_middle.
Qed.

(** ** Inverse document frequency *)
Lemma ln_pos x : 1 < x -> 0 < ln x.
Proof. intros H. rewrite <- ln_1. apply ln_increasing; lra. Qed.
Lemma idf_pos (D : smap Z (list str)) w : In w (vocabulary D) -> 0 < idf D w.
Proof.
  intros Hw. unfold idf. rarith. apply ln_pos. pose proof (IZR_ge1 _ (doc_freq_pos D w Hw)). pose proof (IZR_ge1 _ (docs_nonempty D w Hw)).
  assert (0 < IZR (Zsize D) / IZR (doc_freq D w)) by (apply Rdiv_pos; lra). lra.
Qed.

(** ** BM25 *)
Section BM25.
  Variables K1 B : R.
  Hypothesis HK : 0 <= K1.
  Hypothesis HB : 0 <= B <= 1.

  Lemma len_weight_pos mean len : 0 < mean -> (1 <= len)%Z -> 0 < 1 - B + B * IZR len / mean.
  Proof.
    intros Hm Hl. pose proof (IZR_ge1 len Hl). assert (H1 : 0 < IZR len / mean) by (apply Rdiv_pos; lra).
    replace (B * IZR len / mean) with (B * (IZR len / mean)) by (unfold Rdiv; ring).
    destruct (Req_dec B 1) as [->|]; [lra|]. assert (0 <= B * (IZR len / mean)) by (apply Rmult_le_pos; lra). lra.
  Qed.
  Lemma bm25_tf_bounds mean len f : 0 < mean -> (1 <= len)%Z -> (1 <= f)%Z ->
    0 < bm25_tf K1 B mean len f <= K1 + 1.
  Proof.
    intros Hm Hl Hf. unfold bm25_tf. rarith. pose proof (IZR_ge1 f Hf). pose proof (len_weight_pos mean len Hm Hl) as HL.
    set (L := 1 - B + B * IZR len / mean) in *. assert (0 <= K1 * L) by (apply Rmult_le_pos; lra). split.
    - apply Rdiv_pos; nra.
    - apply Rmult_le_reg_r with (IZR f + K1 * L); [lra|]. unfold Rdiv. rewrite Rmult_assoc, Rinv_l by lra. nra.
  Qed.
  Lemma bm25_tf_strict mean len f : 0 < K1 -> 0 < mean -> (1 <= len)%Z -> (1 <= f)%Z -> bm25_tf K1 B mean len f < K1 + 1.
  Proof.
    intros HK' Hm Hl Hf. unfold bm25_tf. rarith. pose proof (IZR_ge1 f Hf). pose proof (len_weight_pos mean len Hm Hl) as HL.
    set (L := 1 - B + B * IZR len / mean) in *. assert (0 < K1 * L) by (apply Rmult_lt_0_compat; lra).
    apply Rmult_lt_reg_r with (IZR f + K1 * L); [lra|]. unfold Rdiv. rewrite Rmult_assoc, Rinv_l by lra. nra.
  Qed.
  Lemma frac_lt a b a' b' : 0 < b -> 0 < b' -> a * b' < a' * b -> a / b < a' / b'.
  Proof.
    intros H1 H2 H. apply Rmult_lt_reg_r with (b * b'); [nra|].
    replace (a / b * (b * b')) with (a * b') by (field; lra). replace (a' / b' * (b * b')) with (a' * b) by (field; lra). exact H.
  Qed.
  Lemma bm25_tf_increasing mean len f f' : 0 < K1 -> 0 < mean -> (1 <= len)%Z -> (1 <= f < f')%Z ->
    bm25_tf K1 B mean len f < bm25_tf K1 B mean len f'.
  Proof.
    intros HK' Hm Hl [Hf Hff]. unfold bm25_tf. rarith. pose proof (IZR_ge1 f Hf). pose proof (IZR_lt f f' Hff).
    pose proof (len_weight_pos mean len Hm Hl) as HL. set (L := 1 - B + B * IZR len / mean) in *.
    assert (0 < K1 * L) by (apply Rmult_lt_0_compat; lra). apply frac_lt; try lra.
    enough (0 < (K1 + 1) * (K1 * L) * (IZR f' - IZR f)) by nra. repeat apply Rmult_lt_0_compat; lra.
  Qed.
  Lemma bm25_tf_decreasing mean len len' f : 0 < K1 -> 0 < B -> 0 < mean -> (1 <= len < len')%Z -> (1 <= f)%Z ->
    bm25_tf K1 B mean len' f < bm25_tf K1 B mean len f.
  Proof.
    intros HK' HB' Hm [Hl Hll] Hf. unfold bm25_tf. rarith. pose proof (IZR_ge1 f Hf). pose proof (IZR_lt len len' Hll).
    assert (Hl' : (1 <= len')%Z) by lia.
    pose proof (len_weight_pos mean len Hm Hl) as HL. pose proof (len_weight_pos mean len' Hm Hl') as HL'.
    assert (Hd : B * IZR len / mean < B * IZR len' / mean).
    { apply Rmult_lt_compat_r; [apply Rinv_0_lt_compat; lra|nra]. }
    set (L := 1 - B + B * IZR len / mean) in *. set (L' := 1 - B + B * IZR len' / mean) in *. assert (L < L') by (unfold L, L'; lra).
    assert (0 < K1 * L) by (apply Rmult_lt_0_compat; lra). assert (K1 * L < K1 * L') by (apply Rmult_lt_compat_l; lra).
    apply frac_lt; try lra. apply Rmult_lt_compat_l; [nra|lra].
  Qed.

  Lemma bm25_bounds (D : smap Z (list str)) total w d ws : get D d = Some ws -> In w ws -> (1 <= total)%Z ->
    0 < bm25 K1 B D total w ws <= idf D w * (1 + K1).
  Proof.
    intros Ed Hw Ht. unfold bm25. assert (Hv : In w (vocabulary D)) by (apply vocabulary_In; eauto).
    pose proof (idf_pos D w Hv) as Hi. pose proof (IZR_ge1 _ Ht). pose proof (IZR_ge1 _ (docs_nonempty D w Hv)).
    assert (Hm : 0 < fdiv (fofZ total) (fofZ (Zsize D))) by (rarith; apply Rdiv_pos; lra).
    pose proof (occurrences_pos w ws Hw). pose proof (occurrences_le w ws).
    destruct (bm25_tf_bounds _ (Zlen ws) (occurrences w ws) Hm) as [Hb1 Hb2]; [lia|lia|].
    change (0 < bm25_tf K1 B (fdiv (fofZ total) (fofZ (Zsize D))) (Zlen ws) (occurrences w ws) * idf D w <= idf D w * (1 + K1)). nra.
  Qed.

  Lemma okapi_weight_nonneg D q : 0 <= okapi_weight K1 D q.
  Proof.
    unfold okapi_weight. rewrite lsum_fsum. apply rsum_nonneg. intros x Hx. apply in_map_iff in Hx as (w & <- & Hw). apply invocab_words_in in Hw.
    pose proof (idf_pos D w Hw). rarith. nra.
  Qed.
  Lemma okapi_weight_app D q q' : okapi_weight K1 D (q ++ q') = okapi_weight K1 D q + okapi_weight K1 D q'.
  Proof. unfold okapi_weight. rewrite !lsum_fsum, filter_app, map_app. apply rsum_app. Qed.
  Lemma okapi_weight_perm D q q' : Permutation q q' -> okapi_weight K1 D q = okapi_weight K1 D q'.
  Proof. intros H. unfold okapi_weight. rewrite !lsum_fsum. apply rsum_perm, Permutation_map, filter_perm, H. Qed.

  Lemma okapi_from_words D total d ws v all : get D d = Some ws -> (forall w, In w ws -> (1 <= total)%Z) ->
    from_words ws (bm25 K1 B D total) v all -> 0 < v <= okapi_weight K1 D all.
  Proof.
    intros Ed Ht (q & rest & HP & -> & He). split.
    - apply existsb_exists in He as (w & Hw & Hc). apply rsum_pos.
      + intros E. apply map_eq_nil in E. assert (Hin : In w (filter (contains ws) q)) by (apply filter_In; auto). rewrite E in Hin. destruct Hin.
      + intros x Hx. apply in_map_iff in Hx as (y & <- & Hy). apply filter_In in Hy as [_ Hy]. apply existsb_eqb_In in Hy.
        apply (bm25_bounds D total y d ws Ed Hy (Ht y Hy)).
    - rewrite <- (okapi_weight_perm D _ _ HP), okapi_weight_app. pose proof (okapi_weight_nonneg D rest).
      enough (words_score (bm25 K1 B D total) q ws <= okapi_weight K1 D q) by lra.
      unfold okapi_weight. rewrite lsum_fsum. apply rsum_filter_le.
      + intros w _ Hc. apply existsb_eqb_In in Hc. split; [apply existsb_eqb_In, vocabulary_In; eauto|].
        apply (bm25_bounds D total w d ws Ed Hc (Ht w Hc)).
      + intros w _ Hv. apply existsb_eqb_In in Hv. pose proof (idf_pos D w Hv). rarith. nra.
  Qed.
End BM25.

Section OkapiTree.
  Variables K1 B : R.
  Hypothesis HK : 0 <= K1.
  Hypothesis HB : 0 <= B <= 1.
  Variable pipeline : list elem.

  Lemma okapi_tree_bound h n m d v qw : history_ok pipeline h -> texts_small pipeline h ->
    executable n -> (forall p, ~ In (NGlob p) (positive_leaves n)) ->
    execute pipeline (python_search_wids K1 B) (okapi_state pipeline h) n = Ok (Some m) ->
    okapi_query_weight pipeline K1 (okapi_state pipeline h) (map term_text (terms n)) = Ok qw ->
    get m d = Some v -> 0 < v <= qw.
  Proof.
    intros H Hs He Hg Hx Hq Hv. pose proof (OkapiSafe_R K1 B HK HB) as OF.
    pose proof (okapi_search_ok K1 B pipeline h H Hs) as SO.
    destruct (execute_indexed pipeline _ _ _ SO n m d v He Hg Hx Hv) as (ws & Ed).
    pose proof (execute_words pipeline _ _ _ SO _ (okapi_scores_ok K1 B pipeline h H Hs) n m d ws v He Hg Hx Ed Hv) as Hw.
    rewrite (okapi_weight_exact pipeline K1 h _ H) in Hq. injection Hq as <-.
    apply (okapi_from_words K1 B HK HB (docs_of pipeline h) (total_words (docs_of pipeline h) + words_cleared pipeline h) d ws v _ Ed); [|exact Hw].
    intros w Hin. assert (Hvo : In w (vocabulary (docs_of pipeline h))) by (apply vocabulary_In; eauto).
    pose proof (total_words_pos _ _ Hvo). pose proof (words_cleared_nonneg pipeline h). lia.
  Qed.
End OkapiTree.

(** ** Cosine *)
Lemma cauchy_schwarz {A} (f g : A -> R) l :
  rsum (map (fun x => f x * g x) l) * rsum (map (fun x => f x * g x) l) <=
  rsum (map (fun x => f x * f x) l) * rsum (map (fun x => g x * g x) l).
Proof.
  set (sf := rsum (map (fun x => f x * f x) l)). set (sg := rsum (map (fun x => g x * g x) l)).
  set (fg := rsum (map (fun x => f x * g x) l)).
  assert (Hq : forall t, 0 <= sf + 2 * t * fg + t * t * sg).
  { intros t. replace (sf + 2 * t * fg + t * t * sg) with (rsum (map (fun x => (f x + t * g x) * (f x + t * g x)) l)).
    - apply rsum_nonneg. intros y Hy. apply in_map_iff in Hy as (x & <- & _). apply Rle_0_sqr.
    - unfold sf, sg, fg. clear. induction l as [|x l IH]; [cbv; ring|]. cbn [map]. rewrite !rsum_cons, IH. ring. }
  assert (Hsg : 0 <= sg) by (apply rsum_nonneg; intros y Hy; apply in_map_iff in Hy as (x & <- & _); apply Rle_0_sqr).
  destruct (Req_dec sg 0) as [E|E].
  - assert (fg = 0).
    { unfold fg, sg in *. clear -E. induction l as [|x l IH]; [reflexivity|]. cbn [map] in *. rewrite rsum_cons in E |- *.
      assert (H1 : 0 <= rsum (map (fun x => g x * g x) l)) by (apply rsum_nonneg; intros y Hy; apply in_map_iff in Hy as (z & <- & _); apply Rle_0_sqr).
      pose proof (Rle_0_sqr (g x)) as H2. unfold Rsqr in H2. assert (Hg : g x = 0) by nra. rewrite Hg, IH by lra. ring. }
    rewrite H, E. lra.
  - pose proof (Hq (- fg / sg)) as H. assert (H' : 0 <= (sf + 2 * (- fg / sg) * fg + - fg / sg * (- fg / sg) * sg) * sg) by (apply Rmult_le_pos; lra).
    replace ((sf + 2 * (- fg / sg) * fg + - fg / sg * (- fg / sg) * sg) * sg) with (sf * sg - fg * fg) in H' by (field; exact E). lra.
Qed.

Lemma distinct_In (w : str) ws : In w (distinct ws) <-> In w ws.
Proof. apply distinct_spec. Qed.

Ltac rops := try change (@fadd R Arith_R) with Rplus in *; try change (@fsub R Arith_R) with Rminus in *;
  try change (@fmul R Arith_R) with Rmult in *; try change (@fdiv R Arith_R) with Rdiv in *;
  try change (@fsqrt R Arith_R) with sqrt in *; try change (@fln R Arith_R) with ln in *;
  try change (@fofZ R Arith_R) with IZR in *; try change (@f1 R Arith_R) with 1 in *; try change (@f0 R Arith_R) with 0 in *.
Lemma NoDup_app_l {A} (l l' : list A) : NoDup (l ++ l') -> NoDup l.
Proof.
  induction l as [|x l IH]; [constructor|]. cbn [app]. intros H. inversion H as [|? ? H1 H2]; subst. constructor; [|exact (IH H2)].
  intros Hx. apply H1, in_or_app. left. exact Hx.
Qed.
Section Cosine.
  Lemma term_weight_ge1 w ws : In w ws -> 1 <= term_weight w ws.
  Proof. intros H. unfold term_weight. rops. pose proof (ln_ge0 _ (IZR_ge1 _ (occurrences_pos w ws H))). lra. Qed.
  Lemma distinct_not_nil (w : str) ws : In w ws -> distinct ws <> [].
  Proof. intros H E. apply distinct_In in H. rewrite E in H. destruct H. Qed.
  Lemma doc_norm_sq ws : doc_norm ws * doc_norm ws = rsum (map (fun w => term_weight w ws * term_weight w ws) (distinct ws)).
  Proof.
    unfold doc_norm. rewrite lsum_fsum. rops. apply sqrt_sqrt. apply rsum_nonneg. intros y Hy. apply in_map_iff in Hy as (x & <- & _). apply Rle_0_sqr.
  Qed.
  Lemma doc_norm_pos w ws : In w ws -> 0 < doc_norm ws.
  Proof.
    intros H. unfold doc_norm. rewrite lsum_fsum. rops. apply sqrt_lt_R0. apply rsum_pos.
    - intros E. apply map_eq_nil in E. exact (distinct_not_nil w ws H E).
    - intros y Hy. apply in_map_iff in Hy as (x & <- & Hx). apply (proj1 (distinct_In _ _)) in Hx. pose proof (term_weight_ge1 x ws Hx). nra.
  Qed.
  Lemma cosine_pos (D : smap Z (list str)) d w ws : get D d = Some ws -> In w ws -> 0 < cosine D w ws.
  Proof.
    intros Ed Hw. unfold cosine, cosine_weight. pose proof (doc_norm_pos w ws Hw). pose proof (term_weight_ge1 w ws Hw).
    assert (Hv : In w (vocabulary D)) by (apply vocabulary_In; eauto). pose proof (idf_pos D w Hv).
    rops. apply Rmult_lt_0_compat; [apply Rdiv_pos; lra|exact H1].
  Qed.
  Lemma unit_vector ws w : In w ws -> rsum (map (fun w => cosine_weight w ws * cosine_weight w ws) (distinct ws)) = 1.
  Proof.
    intros Hw. pose proof (doc_norm_pos w ws Hw) as Hn. pose proof (doc_norm_sq ws) as Hs.
    rewrite (rsum_ext _ (fun w => / (doc_norm ws * doc_norm ws) * (term_weight w ws * term_weight w ws))).
    - rewrite rsum_scale, <- Hs. field. lra.
    - intros x _. unfold cosine_weight. rops. field. lra.
  Qed.
  Lemma sub_unit_vector ws w q : In w ws -> NoDup q -> (forall x, In x q -> In x ws) ->
    rsum (map (fun w => cosine_weight w ws * cosine_weight w ws) q) <= 1.
  Proof.
    intros Hw Hn Hi. rewrite <- (unit_vector ws w Hw).
    destruct (nodup_part q (distinct ws) Hn) as (rest & HP); [intros x Hx; apply (proj2 (distinct_In _ _)); auto|].
    rewrite <- (rsum_perm _ _ (Permutation_map (fun w => cosine_weight w ws * cosine_weight w ws) HP)), map_app, rsum_app.
    assert (0 <= rsum (map (fun w => cosine_weight w ws * cosine_weight w ws) rest)); [|lra].
    apply rsum_nonneg. intros y Hy. apply in_map_iff in Hy as (x & <- & _). apply Rle_0_sqr.
  Qed.

  Lemma cos_from_words D d ws v all : get D d = Some ws -> NoDup all ->
    from_words ws (cosine D) v all -> 0 < v <= cos_weight D all.
  Proof.
    intros Ed Hn (q & rest & HP & -> & He). apply existsb_exists in He as (w & Hw & Hc).
    assert (Hin : forall y, In y (filter (contains ws) q) -> In y ws) by (intros y Hy; apply filter_In in Hy as [_ Hy]; apply existsb_eqb_In; exact Hy).
    assert (Hpos : 0 < words_score (cosine D) q ws).
    { apply rsum_pos.
      + intros E. apply map_eq_nil in E. assert (Hf : In w (filter (contains ws) q)) by (apply filter_In; auto). rewrite E in Hf. destruct Hf.
      + intros x Hx. apply in_map_iff in Hx as (y & <- & Hy). apply (cosine_pos D d y ws Ed). auto. }
    split; [exact Hpos|]. set (v := words_score (cosine D) q ws) in *. unfold cos_weight. rewrite lsum_fsum. rops.
    set (S2 := fsum _). assert (Hsq : v * v <= S2).
    { unfold v, words_score. eapply Rle_trans; [apply (cauchy_schwarz (fun w => cosine_weight w ws) (fun w => idf D w))|].
      assert (Hq : NoDup (filter (contains ws) q)).
      { apply NoDup_filter. apply (Permutation_NoDup (Permutation_sym HP)) in Hn. exact (NoDup_app_l q rest Hn). }
      pose proof (sub_unit_vector ws w _ (Hin w ltac:(apply filter_In; auto)) Hq Hin) as Hu.
      assert (H0 : 0 <= rsum (map (fun w => idf D w * idf D w) (filter (contains ws) q)))
        by (apply rsum_nonneg; intros y Hy; apply in_map_iff in Hy as (x & <- & _); apply Rle_0_sqr).
      assert (Hle : rsum (map (fun w => idf D w * idf D w) (filter (contains ws) q)) <= S2).
      { unfold S2. rewrite <- (rsum_perm _ _ (Permutation_map (fun w => idf D w * idf D w) (filter_perm (contains (vocabulary D)) _ _ HP))).
        rewrite filter_app, map_app, rsum_app.
        assert (0 <= rsum (map (fun w => idf D w * idf D w) (filter (contains (vocabulary D)) rest)))
          by (apply rsum_nonneg; intros y Hy; apply in_map_iff in Hy as (x & <- & _); apply Rle_0_sqr).
        assert (rsum (map (fun w => idf D w * idf D w) (filter (contains ws) q)) <= rsum (map (fun w => idf D w * idf D w) (filter (contains (vocabulary D)) q))); [|lra].
        apply rsum_filter_le.
        - intros x _ Hx. apply existsb_eqb_In in Hx. split; [apply existsb_eqb_In, vocabulary_In; eauto|apply Rle_refl].
        - intros x _ _. apply Rle_0_sqr. }
      nra. }
    rewrite <- (sqrt_square v) by lra. apply sqrt_le_1; nra.
  Qed.

  Variable pipeline : list elem.
  Lemma cos_tree_bound h n m d v qw : history_ok pipeline h ->
    executable n -> (forall p, ~ In (NGlob p) (positive_leaves n)) ->
    NoDup (flat_map (fun t => text_words pipeline (term_text t)) (terms n)) ->
    execute pipeline cos_search_wids (cos_state (F := R) pipeline h) n = Ok (Some m) ->
    cos_query_weight pipeline (cos_state (F := R) pipeline h) (map term_text (terms n)) = Ok qw ->
    get m d = Some v -> 0 < v <= qw.
  Proof.
    intros H He Hg Hn Hx Hq Hv. pose proof (cos_search_ok (F := R) pipeline h H) as SO.
    destruct (execute_indexed pipeline _ _ _ SO n m d v He Hg Hx Hv) as (ws & Ed).
    pose proof (execute_words pipeline _ _ _ SO _ (cos_scores_ok (F := R) pipeline h H) n m d ws v He Hg Hx Ed Hv) as Hw.
    rewrite (cos_weight_exact pipeline h _ H) in Hq. injection Hq as <-.
    apply (cos_from_words (docs_of pipeline h) d ws v _ Ed); [|exact Hw].
    rewrite flat_map_concat_map, map_map, <- flat_map_concat_map. exact Hn.
  Qed.
End Cosine.
