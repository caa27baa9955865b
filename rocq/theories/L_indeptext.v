(** * Lemmas: two histories with the same documents give the same answers *)
From Verif Require Import L_widcode L_lexicon L_setops L_baseindex L_textsys L_okapi L_cosine L_search L_okasearch L_cossearch
  L_textapi L_indep L_costext M_tree S_tree L_tree L_textex L_searchex S_setops S_score S_text S_textapi S_indep M_cosine M_textindex Ord.

(** ** Query trees *)
Section ExecExt.
  Context {F : Type} {AF : Arith F}.
  Local Notation wmap := (smap Z F).
  Variables s1 s2 : str -> res (option wmap).
  Variables p1 p2 : list str -> res (option wmap).
  Variables g1 g2 : str -> res (option wmap).
  Local Notation exec1 := (executeQuery s1 p1 g1).
  Local Notation exec2 := (executeQuery s2 p2 g2).

  Lemma and_loop_ext l : Forall (fun x => exec1 (strip x) = exec2 (strip x)) l ->
    forall L N, and_loop s1 p1 g1 l L N = and_loop s2 p2 g2 l L N.
  Proof.
    induction 1 as [|x l Hx Hl IH]; intros L N; [reflexivity|].
    destruct x; cbn [and_loop]; cbn [strip] in Hx; rewrite Hx; (destruct (executeQuery s2 p2 g2 _); [apply IH|reflexivity]).
  Qed.
  Lemma or_loop_ext l : Forall (fun x => exec1 x = exec2 x) l -> forall L, or_loop s1 p1 g1 l L = or_loop s2 p2 g2 l L.
  Proof.
    induction 1 as [|x l Hx Hl IH]; intros L; [reflexivity|]. cbn [or_loop]. rewrite Hx.
    destruct (executeQuery s2 p2 g2 x); [apply IH|reflexivity].
  Qed.
  Lemma execute_ext n : (forall x, In x (leaves n) -> run_leaf s1 p1 g1 x = run_leaf s2 p2 g2 x) -> exec1 n = exec2 n.
  Proof.
    intros H. enough (E : exec1 n = exec2 n /\ exec1 (strip n) = exec2 (strip n)) by apply E. revert H.
    induction n as [w|ws|w|m IH|l IH|l IH] using node_induction; intros H.
    1-3: specialize (H _ (or_introl eq_refl)); split; exact H.
    - split; [reflexivity|]. cbn [strip]. apply IH. exact H.
    - assert (E : exec1 (NAnd l) = exec2 (NAnd l)); [|split; exact E]. rewrite !exec_NAnd, and_loop_ext; [reflexivity|].
      rewrite Forall_forall in *. intros x Hx. apply (IH x Hx). intros y Hy. apply H. cbn [leaves]. apply in_flat_map. eauto.
    - assert (E : exec1 (NOr l) = exec2 (NOr l)); [|split; exact E]. rewrite !exec_NOr, or_loop_ext; [reflexivity|].
      rewrite Forall_forall in *. intros x Hx. apply (IH x Hx). intros y Hy. apply H. cbn [leaves]. apply in_flat_map. eauto.
  Qed.
End ExecExt.

(** ** Exact phrases *)
Lemma contains_exact {V} (rnd : V -> V) fr (s : sys V) D d ws q : sysinv rnd fr s D -> get D d = Some ws ->
  (forall w, In w q -> In w ws) -> exact_phrase (slx s) D q ->
  (str_contains (codes (ids (slx s) ws)) (codes (ids (slx s) q)) = true <-> in_a_row q ws).
Proof.
  intros Hi Ed Ha Hx. destruct (list_eq_dec (list_eq_dec Z.eq_dec) q []) as [->|Hn].
  - split; [intros _; exists [], ws; reflexivity|]. intros _. apply str_contains_spec. exists [], (codes (ids (slx s) ws)). reflexivity.
  - destruct (exists_last Hn) as (init & l & ->). rewrite (contains_iff rnd fr s D Hi d ws init l Ed Ha). split.
    + intros (l' & Hc & Hl). destruct Hx as [Hx|Hx].
      * destruct init as [|x init]; [|unfold Zlen in Hx; rewrite app_length in Hx; cbn in Hx; lia].
        destruct (in_split l ws (Ha l (or_introl eq_refl))) as (a & b & ->). exists a, b. reflexivity.
      * destruct Hl as [->|(k & Hk & Hl)]; [exact Hc|]. destruct (Hx init l l' k eq_refl) as []; [| |exact Hk|exact Hl];
          apply vocabulary_In; exists d, ws; (split; [exact Ed|]); [apply Ha, in_or_app; right; left; reflexivity|]. destruct Hc as (a & b & ->).
        apply in_or_app. right. apply in_or_app. left. apply in_or_app. right. left. reflexivity.
    + intros Hc. exists l. split; [exact Hc|left; reflexivity].
Qed.
Lemma small_exact {V} (rnd : V -> V) fr (s : sys V) D q : sysinv rnd fr s D ->
  (forall w, In w (vocabulary D) -> get_wid (slx s) w < 128) -> exact_phrase (slx s) D q.
Proof.
  intros (H1 & H2 & _) Hs. right. intros init l w k -> Hl Hw Hk E. specialize (Hs w Hw).
  assert (Hp : forall w, In w (vocabulary D) -> 0 < get_wid (slx s) w).
  { intros x Hx. apply vocabulary_In in Hx as (d & ws & Ed & Hx). destruct (H2 d ws Ed x Hx) as [i Hi]. unfold get_wid. rewrite Hi.
    destruct H1 as (H1 & Hp & _). apply H1 in Hi. apply Hp in Hi. lia. }
  pose proof (Hp w Hw). pose proof (Hp l Hl).
  assert (128 <= 128 ^ k) by (change 128 with (128 ^ 1) at 1; apply Z.pow_le_mono_r; lia). rewrite Z.div_small in E by lia. lia.
Qed.

(** ** Answers *)
Section Same.
  Context {V F : Type} {AF : Arith F}.
  Variable pipeline : list elem.
  Variable search_wids : bindex V -> list Z -> res (list (smap Z F * F)).
  Variable query_weight : sys V -> list ltext -> res F.
  Variable exact : list str -> Prop.
  Variables a b : sys V.
  Hypothesis Hs : forall t, search pipeline search_wids a t = search pipeline search_wids b t.
  Hypothesis Hp : forall t, exact (text_words pipeline t) -> search_phrase pipeline search_wids a t = search_phrase pipeline search_wids b t.
  Hypothesis Hg : forall p, search_glob search_wids a p = search_glob search_wids b p.
  Hypothesis Hw : forall ts, query_weight a ts = query_weight b ts.
  Lemma answers : same_answers pipeline search_wids query_weight exact a b.
  Proof.
    refine (conj Hs (conj Hp (conj Hg (conj Hw _)))). intros space upper qp query start count Hx. unfold apply.
    destruct (parseQuery _ _ _ _ query) as [[n ign]|e] eqn:Eq; [|reflexivity]. cbn [pbind].
    assert (E : execute pipeline search_wids a n = execute pipeline search_wids b n).
    { apply execute_ext. intros x Hin. destruct x as [w|q|p| | |]; cbn [run_leaf]; try reflexivity.
      - apply Hs.
      - f_equal. apply Hp. exact (Hx n ign q eq_refl Hin).
      - f_equal. apply Hg. }
    rewrite E. destruct (execute pipeline search_wids b n) as [[m|]|e]; try reflexivity. destruct (is_empty m); [reflexivity|].
    unfold normalise. rewrite Hw. reflexivity.
  Qed.
End Same.

Lemma doc_text_D {V} (rnd : V -> V) fr (s : sys V) D d : sysinv rnd fr s D ->
  doc_text s d = match get D d with Some ws => Ok ws | None => Raise KeyError end.
Proof.
  intros Hi. unfold doc_text. rewrite (get_words_D _ _ _ _ _ Hi). destruct (get D d) as [ws|] eqn:Ed; [|reflexivity]. cbn [bind].
  exact (words_back _ _ _ _ _ _ Hi Ed).
Qed.

Section Histories.
  Variable pipeline : list elem.
  Local Notation words t := (text_words pipeline t).
  Local Notation docs h := (docs_of pipeline h).

  Lemma okapi_indep h1 h2 : history_ok pipeline h1 -> history_ok pipeline h2 ->
    texts_small pipeline h1 -> texts_small pipeline h2 ->
    docs h1 = docs h2 -> words_cleared pipeline h1 = words_cleared pipeline h2 ->
    let a := okapi_state pipeline h1 in let b := okapi_state pipeline h2 in
    same_texts a b /\
    forall F (AF : Arith F) (K1 B : F),
      same_answers pipeline (python_search_wids K1 B) (okapi_query_weight pipeline K1)
        (fun q => exact_phrase (slx a) (docs h1) q /\ exact_phrase (slx b) (docs h1) q) a b.
  Proof.
    intros H1 H2 S1 S2 Hd Hc a b. destruct (okapi_state_ok pipeline h1 H1) as (_ & _ & I1 & _).
    destruct (okapi_state_ok pipeline h2 H2) as (_ & _ & I2 & _). fold a in I1. fold b in I2. rewrite <- Hd in I2.
    pose proof (docs_small_ok pipeline h1 S1) as Hsm.
    assert (Ht : totaldoclen (six a) = totaldoclen (six b)).
    { unfold a, b. rewrite (okapi_total_ok pipeline h1 H1 S1), (okapi_total_ok pipeline h2 H2 S2). congruence. }
    destruct (oka_same_counts (docs h1) a b I1 I2) as [C1 C2]. split.
    - refine (conj _ (conj _ (conj C1 C2))).
      + intros d. rewrite (has_doc_D _ _ _ _ _ I1), (has_doc_D _ _ _ _ _ I2). reflexivity.
      + intros d. rewrite (doc_text_D _ _ _ _ _ I1), (doc_text_D _ _ _ _ _ I2). reflexivity.
    - intros F AF K1 B.
      assert (SS : forall ws, (forall w, In w ws -> In w (vocabulary (docs h1))) ->
        python_search_wids K1 B (six a) (ids (slx a) ws) = python_search_wids K1 B (six b) (ids (slx b) ws)).
      { intros ws. apply (oka_same_scores (docs h1)); assumption. }
      apply answers.
      + intros t. apply (indep_search pipeline f32Z okapi_fr okapi_keys (docs h1)); assumption.
      + intros t [X1 X2]. apply (indep_phrase pipeline f32Z okapi_fr okapi_keys (docs h1)); try assumption.
        * intros d ws Ed Ha. apply bool_eq_iff.
          rewrite (contains_exact _ _ _ _ d ws _ I1 Ed Ha X1), (contains_exact _ _ _ _ d ws _ I2 Ed Ha X2). reflexivity.
        * intros ws m. apply (oka_scores_keys (docs h1) Hsm a b I1 I2).
      + intros p. apply (indep_glob f32Z okapi_fr okapi_keys (docs h1)); assumption.
      + intros ts. apply (oka_same_weight pipeline (docs h1) Hsm a b I1 I2).
  Qed.

  Lemma cos_indep F (AF : Arith F) : SafeArith F -> SoundEq F ->
    forall h1 h2, history_ok pipeline h1 -> history_ok pipeline h2 -> docs h1 = docs h2 ->
    let a := cos_state (F := F) pipeline h1 in let b := cos_state (F := F) pipeline h2 in
    same_texts a b /\
    same_answers pipeline cos_search_wids (cos_query_weight pipeline)
      (fun q => exact_phrase (slx a) (docs h1) q /\ exact_phrase (slx b) (docs h1) q) a b.
  Proof.
    intros SF QF h1 h2 H1 H2 Hd a b. destruct (cos_state_ok (F := F) pipeline h1 H1) as (_ & _ & I1).
    destruct (cos_state_ok (F := F) pipeline h2 H2) as (_ & _ & I2). fold a in I1. fold b in I2. rewrite <- Hd in I2.
    destruct (cos_same_counts (docs h1) a b I1 I2) as [C1 C2]. split.
    - refine (conj _ (conj _ (conj C1 C2))).
      + intros d. rewrite (has_doc_D _ _ _ _ _ I1), (has_doc_D _ _ _ _ _ I2). reflexivity.
      + intros d. rewrite (doc_text_D _ _ _ _ _ I1), (doc_text_D _ _ _ _ _ I2). reflexivity.
    - assert (SS : forall ws, (forall w, In w ws -> In w (vocabulary (docs h1))) ->
        cos_search_wids (six a) (ids (slx a) ws) = cos_search_wids (six b) (ids (slx b) ws)).
      { intros ws. apply (cos_same_scores (docs h1)); assumption. }
      apply answers.
      + intros t. apply (indep_search pipeline f32 cos_fr cos_keys (docs h1)); assumption.
      + intros t [X1 X2]. apply (indep_phrase pipeline f32 cos_fr cos_keys (docs h1)); try assumption.
        * intros d ws Ed Ha. apply bool_eq_iff.
          rewrite (contains_exact _ _ _ _ d ws _ I1 Ed Ha X1), (contains_exact _ _ _ _ d ws _ I2 Ed Ha X2). reflexivity.
        * intros ws m. apply (cos_scores_keys (docs h1) a I1).
      + intros p. apply (indep_glob f32 cos_fr cos_keys (docs h1)); assumption.
      + intros ts. apply (cos_same_qweight pipeline (docs h1) a b I1 I2).
  Qed.

  (** small ids: all phrases are exact *)
  Lemma okapi_small_exact h q : history_ok pipeline h ->
    (forall w, In w (vocabulary (docs h)) -> get_wid (slx (okapi_state pipeline h)) w < 128) ->
    exact_phrase (slx (okapi_state pipeline h)) (docs h) q.
  Proof. intros H. destruct (okapi_state_ok pipeline h H) as (_ & _ & I & _). apply (small_exact _ _ _ _ _ I). Qed.
  Lemma cos_small_exact F (AF : Arith F) : SafeArith F -> SoundEq F -> forall h q, history_ok pipeline h ->
    (forall w, In w (vocabulary (docs h)) -> get_wid (slx (cos_state (F := F) pipeline h)) w < 128) ->
    exact_phrase (slx (cos_state (F := F) pipeline h)) (docs h) q.
  Proof. intros SF QF h q H. destruct (cos_state_ok (F := F) pipeline h H) as (_ & _ & I). apply (small_exact _ _ _ _ _ I). Qed.
End Histories.

(** ** The counterexample for phrases *)
Definition short_hist : list top := [TIndex 1 (TxList [[1]; [2]; [133]])].
Lemma phrase_differs : exists pipeline h1 h2 t,
  history_ok pipeline h1 /\ history_ok pipeline h2 /\ texts_small pipeline h1 /\ texts_small pipeline h2 /\
  docs_of pipeline h1 = docs_of pipeline h2 /\ words_cleared pipeline h1 = words_cleared pipeline h2 /\
  forall F (AF : Arith F), SafeArith F -> forall K1 B : F, OkapiSafe K1 B ->
  exists m1 m2, search_phrase pipeline (python_search_wids K1 B) (okapi_state pipeline h1) t = Ok m1 /\
    search_phrase pipeline (python_search_wids K1 B) (okapi_state pipeline h2) t = Ok m2 /\ mem 1 m1 = true /\ mem 1 m2 = false.
Proof.
  exists id_pipe, false_hist, short_hist, (TxList [[2]; [1]]).
  assert (H1 : history_ok id_pipe false_hist) by (apply check_history_ok; vm_compute; reflexivity).
  assert (H2 : history_ok id_pipe short_hist) by (apply check_history_ok; vm_compute; reflexivity).
  assert (S1 : texts_small id_pipe false_hist) by (apply check_small_ok; vm_compute; reflexivity).
  assert (S2 : texts_small id_pipe short_hist) by (apply check_small_ok; vm_compute; reflexivity).
  splits; try assumption; try (vm_compute; reflexivity).
  intros F AF SF K1 B OF.
  destruct (okapi_phrase_iff K1 B id_pipe false_hist (TxList [[2]; [1]]) [[2]] [1] H1 S1 eq_refl) as (m1 & E1 & M1).
  destruct (okapi_phrase_exact K1 B id_pipe short_hist (TxList [[2]; [1]]) H2 S2 ltac:(discriminate)) as (m2 & E2 & M2).
  { intros w H. repeat (destruct H as [<-|H]; [vm_compute; reflexivity|]). destruct H. }
  exists m1, m2. splits; [exact E1|exact E2| |].
  - apply M1. exists [[1]; [2]; [133]]. split; [vm_compute; reflexivity|]. split.
    + intros w [<-|[<-|[]]]; cbn; auto.
    + exists [133]. split; [exists [[1]], []; reflexivity|]. right. exists 1. split; [lia|]. vm_compute. reflexivity.
  - destruct (mem 1 m2) eqn:E; [exfalso|reflexivity]. apply M2 in E as (ws & Ed & a & b & Er).
    assert (Hw : ws = [[1]; [2]; [133]]) by (vm_compute in Ed; congruence). rewrite Hw in Er.
    change (text_words id_pipe (TxList [[2]; [1]])) with ([[2]; [1]] : list str) in Er.
    destruct a as [|x1 [|x2 [|x3 [|x4 a]]]]; cbn in Er; try discriminate; injection Er; intros; try discriminate;
      destruct a; discriminate.
Qed.
