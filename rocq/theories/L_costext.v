(** * Lemmas for the theorems about the cosine index *)
From Verif Require Import L_widcode L_lexicon L_setops L_baseindex L_textsys L_okapi L_cosine L_search L_okasearch L_cossearch
  L_textapi L_indep S_setops S_score S_text S_textapi M_cosine Ord.

Section CosHist.
  Context {F : Type} {AF : Arith F} {SF : SafeArith F} {EF : SoundEq F}.
  Variable pipeline : list elem.
  Local Notation words t := (text_words pipeline t).
  Local Notation docs h := (docs_of pipeline h).
  Local Notation st h := (cos_state (F := F) pipeline h).
  Local Notation cosinv := (sysinv f32 cos_fr).

  Lemma cos_state_ok h : history_ok pipeline h ->
    snd (cos_run (F := F) pipeline h) = Ok tt /\ slx (st h) = lex_run pipeline (lex_hist h) /\ cosinv (st h) (docs h).
  Proof.
    intros H. destruct (cos_run_ok pipeline h H) as (s & E & E2 & E3 & _). unfold cos_state. rewrite E. auto.
  Qed.

  Lemma cos_consistent h : history_ok pipeline h ->
    slx (st h) = lex_run pipeline (lex_hist h) /\
    (forall d, has_doc (six (st h)) d = mem d (docs h)) /\
    (forall d, get_words (six (st h)) d =
       match get (docs h) d with Some ws => Ok (map (get_wid (slx (st h))) ws) | None => Raise KeyError end) /\
    (forall d ws, get (docs h) d = Some ws -> mapM (get_word (slx (st h))) (map (get_wid (slx (st h))) ws) = Ok ws) /\
    (forall w d, mem d (posting_of (st h) w) = true <-> exists ws, get (docs h) d = Some ws /\ In w ws) /\
    (forall i p, get (wordinfo (six (st h))) i = Some p ->
       exists w, In w (vocabulary (docs h)) /\ i = get_wid (slx (st h)) w /\ p_map p = posting_of (st h) w).
  Proof.
    intros H. destruct (cos_state_ok h H) as (_ & E2 & Hi). splits.
    - exact E2.
    - intros d. exact (has_doc_D _ _ _ _ _ Hi).
    - intros d. exact (get_words_D _ _ _ _ _ Hi).
    - intros d ws Hd. exact (words_back _ _ _ _ _ _ Hi Hd).
    - intros w d. exact (posting_mem _ _ cos_keys _ _ _ _ Hi).
    - intros i p Hp. assert (Hm : mem i (wordinfo (six (st h))) = true) by (apply mem_get; eauto).
      destruct (wid_word _ _ cos_keys _ _ Hi i Hm) as (w & Hw & ->). exists w. splits; auto.
      destruct (posting_item _ _ cos_keys _ _ Hi w Hw) as (q & Eq & Hq). congruence.
  Qed.
  Lemma cos_counts h : history_ok pipeline h ->
    documentCount (six (st h)) = Zsize (docs h) /\ wordCount (six (st h)) = Zlen (vocabulary (docs h)).
  Proof. intros H. destruct (cos_state_ok h H) as (_ & _ & Hi). exact (counts_D _ _ cos_keys _ _ Hi). Qed.
  Lemma cos_no_raise h : history_ok pipeline h -> snd (cos_run (F := F) pipeline h) = Ok tt.
  Proof. intros H. apply (cos_state_ok h H). Qed.
  Lemma cos_unindex_unknown h d : history_ok pipeline h -> get (docs h) d = None ->
    base_unindex_doc d (st h) = (st h, Ok tt).
  Proof. intros H Hd. destruct (cos_state_ok h H) as (_ & _ & Hi). exact (sys_unindex_none _ _ _ _ _ Hi Hd). Qed.

  Lemma cos_search_docs h t : history_ok pipeline h ->
    (words t = [] -> search pipeline cos_search_wids (st h) t = Ok None) /\
    (words t <> [] -> exists m, search pipeline cos_search_wids (st h) t = Ok (Some m) /\
       forall d, mem d m = true <-> exists ws, get (docs h) d = Some ws /\ has_some (words t) ws).
  Proof.
    intros H. destruct (cos_state_ok h H) as (_ & _ & Hi).
    pose proof (search_docs pipeline f32 cos_fr cos_keys cos_search_wids (st h) (docs h) Hi _ _
      (cos_wids_ok _ _ Hi) (cos_keys' _ _ Hi) t) as HS.
    destruct (words t); split; intros E; try (contradiction || discriminate); exact HS.
  Qed.
  Lemma cos_phrase_complete h t d ws : history_ok pipeline h ->
    words t <> [] -> get (docs h) d = Some ws -> in_a_row (words t) ws ->
    exists m, search_phrase pipeline cos_search_wids (st h) t = Ok m /\ mem d m = true.
  Proof.
    intros H. destruct (cos_state_ok h H) as (_ & _ & Hi).
    exact (phrase_complete pipeline f32 cos_fr cos_keys cos_search_wids (st h) (docs h) Hi _ _
      (cos_wids_ok _ _ Hi) (cos_keys' _ _ Hi) t d ws).
  Qed.
  Lemma cos_phrase_sound h t : history_ok pipeline h ->
    exists m, search_phrase pipeline cos_search_wids (st h) t = Ok m /\
      forall d, mem d m = true -> words t <> [] /\ exists ws, get (docs h) d = Some ws /\ forall w, In w (words t) -> In w ws.
  Proof.
    intros H. destruct (cos_state_ok h H) as (_ & _ & Hi).
    destruct (phrase_docs pipeline f32 cos_fr cos_keys cos_search_wids (st h) (docs h) Hi _ _
      (cos_wids_ok _ _ Hi) (cos_keys' _ _ Hi) t) as (m & Em & Hm).
    exists m. split; [exact Em|]. intros d Hd. apply Hm in Hd as (Hn & ws & Ed & Ha & _). eauto.
  Qed.
  Lemma cos_phrase_iff h t init l : history_ok pipeline h -> words t = init ++ [l] ->
    exists m, search_phrase pipeline cos_search_wids (st h) t = Ok m /\
      forall d, mem d m = true <-> exists ws, get (docs h) d = Some ws /\ (forall w, In w (words t) -> In w ws) /\
       exists l', in_a_row (init ++ [l']) ws /\
         (l' = l \/ exists k, 1 <= k <= 3 /\ get_wid (slx (st h)) l' / 128 ^ k = get_wid (slx (st h)) l).
  Proof.
    intros H Ew. destruct (cos_state_ok h H) as (_ & _ & Hi).
    pose proof (fun d => phrase_iff pipeline f32 cos_fr cos_keys cos_search_wids (st h) (docs h) Hi _ _
      (cos_wids_ok _ _ Hi) (cos_keys' _ _ Hi) t d init l Ew) as HP.
    destruct (HP 0) as (m & Em & _). exists m. split; [exact Em|]. intros d. destruct (HP d) as (m' & Em' & Hm).
    rewrite Em in Em'. injection Em' as <-. exact Hm.
  Qed.
  Lemma cos_phrase_exact h t : history_ok pipeline h -> words t <> [] ->
    (forall w, In w (vocabulary (docs h)) -> get_wid (slx (st h)) w < 128) ->
    exists m, search_phrase pipeline cos_search_wids (st h) t = Ok m /\
      forall d, mem d m = true <-> exists ws, get (docs h) d = Some ws /\ in_a_row (words t) ws.
  Proof.
    intros H Hn Hw. destruct (cos_state_ok h H) as (_ & _ & Hi).
    pose proof (fun d => phrase_exact pipeline f32 cos_fr cos_keys cos_search_wids (st h) (docs h) Hi _ _
      (cos_wids_ok _ _ Hi) (cos_keys' _ _ Hi) t d Hn Hw) as HP.
    destruct (HP 0) as (m & Em & _). exists m. split; [exact Em|]. intros d. destruct (HP d) as (m' & Em' & Hm).
    rewrite Em in Em'. injection Em' as <-. exact Hm.
  Qed.
  Lemma cos_glob_docs h prefix c rest : history_ok pipeline h ->
    prefix <> [] -> plain prefix -> c = chr_star \/ c = chr_qm -> no_newline (slx (st h)) ->
    exists m, search_glob cos_search_wids (st h) (prefix ++ c :: rest) = Ok m /\
      forall d, mem d m = true <-> exists ws w, get (docs h) d = Some ws /\ In w ws /\ glob_match (prefix ++ c :: rest) w.
  Proof.
    intros H Hne Hpl Hc Hnl. destruct (cos_state_ok h H) as (_ & _ & Hi).
    apply is_glob_char_iff in Hc. destruct (glob_exact (slx (st h)) prefix c rest Hne Hpl Hc Hnl) as (wids & Eg & Hg).
    destruct (search_glob_docs f32 cos_fr cos_keys cos_search_wids (st h) (docs h) Hi _ _
      (cos_wids_ok _ _ Hi) (cos_keys' _ _ Hi) _ _ wids Eg Hg) as (m & Em & Hm).
    exists m. split; [exact Em|]. intros d. rewrite Hm. split.
    - intros (ws & Ed & w & Hw & Hx). eauto.
    - intros (ws & w & Ed & Hw & Hx). eauto.
  Qed.
  Lemma cos_weights_D h : history_ok pipeline h ->
    (forall w d ws v, get (docs h) d = Some ws -> get (posting_of (st h) w) d = Some v ->
       v = cosine_weight w ws \/ v = f32 (cosine_weight w ws)) /\
    (forall d, get (docweight (six (st h))) d = option_map (fun ws => f32 (doc_norm ws)) (get (docs h) d)).
  Proof.
    intros H. destruct (cos_state_ok h H) as (_ & _ & Hi). split.
    - intros w d ws v Hd Hv. exact (cos_posting_val _ _ Hi w d ws v Hd Hv).
    - intros d. rewrite (weight_D _ _ _ _ _ Hi). destruct (get (docs h) d) as [ws|] eqn:Ed; [|reflexivity].
      cbn [option_map]. f_equal. f_equal. pose proof Hi as (_ & H2 & _). exact (cos_norm _ _ Hi ws (H2 d ws Ed)).
  Qed.

  Lemma cos_determined h1 h2 : history_ok pipeline h1 -> history_ok pipeline h2 ->
    docs h1 = docs h2 -> lex_run pipeline (lex_hist h1) = lex_run pipeline (lex_hist h2) -> cos_same pipeline (st h1) (st h2).
  Proof.
    intros H1 H2 Hd Hl. destruct (cos_state_ok h1 H1) as (_ & L1 & I1). destruct (cos_state_ok h2 H2) as (_ & L2 & I2).
    assert (Hlx : slx (st h1) = slx (st h2)) by congruence. rewrite <- Hd in I2.
    destruct (cos_same_counts (docs h1) _ _ I1 I2) as [C1 C2]. split; [|splits].
    - split; [exact Hlx|]. splits; try assumption.
      + intros d. rewrite (has_doc_D _ _ _ _ _ I1), (has_doc_D _ _ _ _ _ I2). reflexivity.
      + intros d. rewrite (get_words_D _ _ _ _ _ I1), (get_words_D _ _ _ _ _ I2), Hlx. reflexivity.
    - intros t. apply (indep_search pipeline f32 cos_fr cos_keys (docs h1)); try assumption.
      intros ws. apply cos_same_scores; assumption.
    - intros t. apply (indep_phrase pipeline f32 cos_fr cos_keys (docs h1)); try assumption.
      + intros ws. apply cos_same_scores; assumption.
      + intros d ws _ _. rewrite Hlx. reflexivity.
      + intros ws m. apply cos_scores_keys. exact I1.
    - intros p. apply (indep_glob f32 cos_fr cos_keys (docs h1)); try assumption.
      intros ws. apply cos_same_scores; assumption.
    - intros ts. exact (cos_same_qweight pipeline (docs h1) _ _ I1 I2 ts).
  Qed.

  Lemma cos_reindex_law h d t : history_ok pipeline (h ++ [TIndex d t]) ->
    cos_same pipeline (st (h ++ [TIndex d t])) (st (h ++ [TUnindex d; TIndex d t])).
  Proof.
    intros H. apply cos_determined.
    - exact H.
    - eapply history_ok_lex; [|exact H]. symmetry. apply lex_hist_reindex.
    - symmetry. apply docs_reindex.
    - rewrite lex_hist_reindex. reflexivity.
  Qed.
  Lemma cos_unindex_law h d t : history_ok pipeline (h ++ [TIndex d t]) ->
    cos_same pipeline (st (h ++ [TIndex d t; TUnindex d])) (st (h ++ [TUnindex d; TOther (LText t)])).
  Proof.
    intros H. assert (Hl : lex_hist (h ++ [TIndex d t]) = lex_hist (h ++ [TIndex d t; TUnindex d])).
    { unfold lex_hist. rewrite !flat_map_app. reflexivity. }
    apply cos_determined.
    - exact (history_ok_lex _ _ _ Hl H).
    - eapply history_ok_lex; [|exact H]. rewrite Hl. apply lex_hist_undo.
    - apply docs_undo.
    - rewrite lex_hist_undo. reflexivity.
  Qed.
  Lemma cos_clear_same h h' : history_ok pipeline (h ++ TClear :: h') ->
    cos_same pipeline (st (h ++ TClear :: h')) (st (map TOther (lex_hist h) ++ h')).
  Proof.
    intros H. apply cos_determined.
    - exact H.
    - eapply history_ok_lex; [|exact H]. apply lex_hist_clear.
    - apply docs_clear.
    - rewrite lex_hist_clear. reflexivity.
  Qed.

End CosHist.

(** ** In exact arithmetic *)
Section CosExact.
  Context {F : Type} {AF : Arith F} {SF : SafeArith F} {XF : ExactArith F}.
  Variable pipeline : list elem.
  Local Notation words t := (text_words pipeline t).
  Local Notation docs h := (docs_of pipeline h).
  Local Notation st h := (cos_state (F := F) pipeline h).

  Lemma cos_search_scores h t m d ws : history_ok pipeline h ->
    search pipeline cos_search_wids (st h) t = Ok (Some m) -> get (docs h) d = Some ws ->
    get m d = if existsb (contains ws) (words t) then Some (words_score (cosine (docs h)) (words t) ws) else None.
  Proof.
    intros H. destruct (cos_state_ok pipeline h H) as (_ & _ & Hi).
    exact (search_scores pipeline f32 cos_fr cos_keys cos_search_wids (st h) (docs h) Hi _ _
      (cos_wids_ok _ _ Hi) (cos_keys' _ _ Hi) (cosine (docs h)) (cos_score_val _ _ Hi) t m d ws).
  Qed.
  Lemma cos_phrase_scores h t m d ws v : history_ok pipeline h ->
    search_phrase pipeline cos_search_wids (st h) t = Ok m -> get (docs h) d = Some ws -> get m d = Some v ->
    v = words_score (cosine (docs h)) (words t) ws.
  Proof.
    intros H. destruct (cos_state_ok pipeline h H) as (_ & _ & Hi).
    exact (phrase_scores pipeline f32 cos_fr cos_keys cos_search_wids (st h) (docs h) Hi _ _
      (cos_wids_ok _ _ Hi) (cos_keys' _ _ Hi) (cosine (docs h)) (cos_score_val _ _ Hi) t m d ws v).
  Qed.
  Lemma cos_glob_scores h prefix c rest : history_ok pipeline h ->
    prefix <> [] -> plain prefix -> c = chr_star \/ c = chr_qm -> no_newline (slx (st h)) ->
    exists m q, search_glob cos_search_wids (st h) (prefix ++ c :: rest) = Ok m /\
      NoDup q /\ (forall w, In w q <-> In w (lex_words (slx (st h))) /\ glob_match (prefix ++ c :: rest) w) /\
      forall d ws, get (docs h) d = Some ws ->
        get m d = if existsb (contains ws) q then Some (words_score (cosine (docs h)) q ws) else None.
  Proof.
    intros H Hne Hpl Hc Hnl. destruct (cos_state_ok pipeline h H) as (_ & _ & Hi).
    apply is_glob_char_iff in Hc. destruct (glob_exact (slx (st h)) prefix c rest Hne Hpl Hc Hnl) as (wids & Eg & Hg).
    pose proof Hi as (Hb & _).
    destruct (glob_scores f32 cos_fr cos_keys cos_search_wids (st h) (docs h) Hi _ _
      (cos_wids_ok _ _ Hi) (cos_keys' _ _ Hi) (cosine (docs h)) (cos_score_val _ _ Hi) _ wids Eg
      (glob_nodup_bij _ _ _ _ Hb Eg)) as (q & m & Em & Hn & Eq & Hm).
    { intros i Hi'. apply Hg in Hi' as (w & Hw & _). eauto. }
    exists m, q. splits; [exact Em|exact Hn| |exact Hm]. exact (glob_words _ _ wids q Hb Hg Eq).
  Qed.
End CosExact.
