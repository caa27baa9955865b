(** * Lemmas about text queries from end to end *)
From Verif Require Import L_setops L_textsys L_textapi L_costext L_weight S_lexicon L_lexicon L_split M_tree S_tree L_query L_tree L_treeex
  S_score S_text S_textapi S_textindex M_textindex L_found L_token M_split S_split S_parser Arith SMap Ord.

(** ** Normalising *)
Section Normalise.
  Context {V F : Type} {AF : Arith F}.
  Lemma normalise_loop_get (qw : F) : feqb qw f0 = false -> forall (items : list (Z * F)) (r : smap Z F),
    NoDup (map fst items) -> exists m, normalise_loop items qw r = Ok m /\
    forall d, get m d = match rget items d with Some v => Some (f32 (fdiv v qw)) | None => get r d end.
  Proof.
    intros Hq. induction items as [|[k v] items IH]; intros r Hn; cbn [normalise_loop rget]; [eauto|].
    unfold py_div at 1. rewrite Hq. cbn [bind]. cbn [map fst] in Hn. inversion Hn as [|? ? Hk Hn']; subst.
    destruct (IH (put k (f32 (fdiv v qw)) r) Hn') as (m & Em & Hm). exists m. split; [exact Em|]. intros d. rewrite Hm.
    rewrite get_put. destruct (eqb d k) eqn:Ed.
    - apply eqb_eq in Ed. subst d. apply rget_None_notin in Hk. rewrite Hk. reflexivity.
    - reflexivity.
  Qed.
  Definition divided (qw : F) (m : smap Z F) : smap Z F := mmap (fun _ v => f32 (fdiv v qw)) m.
  Lemma normalise_loop_ok (qw : F) (r : smap Z F) : feqb qw f0 = false -> normalise_loop (elts r) qw r = Ok (divided qw r).
  Proof.
    intros Hq. destruct (normalise_loop_get qw Hq (elts r) r (keys_NoDup r)) as (m & Em & Hm). rewrite Em. f_equal.
    apply smap_ext. intros d. rewrite Hm. unfold divided. rewrite get_mmap. unfold get. destruct (rget (elts r) d); reflexivity.
  Qed.
End Normalise.

(** ** apply, for both indexes *)
Section Apply.
  Context {V F : Type} {AF : Arith F} {SF : SafeArith F}.
  Variable space : char -> bool.
  Variable upper : str -> str.
  Variable qpipeline pipeline : list elem.
  Variable search_wids : bindex V -> list Z -> res (list (smap Z F * F)).
  Variable query_weight : sys V -> list ltext -> res F.
  Variable s : sys V.
  Variable D : smap Z (list str).
  Hypothesis hyphen : space 45 = false.
  Hypothesis SO : search_ok pipeline search_wids s D.
  Hypothesis QW : forall ts, exists q, query_weight s ts = Ok q.
  Local Notation parse := (parseQuery space upper (fun t => parseTerms qpipeline (TxStr t)) isGlob).
  Local Notation app query start count := (apply space upper qpipeline pipeline search_wids query_weight s query start count).
  Definition globs_good (n : node) : Prop := forall p, In (NGlob p) (leaves n) -> good_glob p /\ no_newline (slx s).
  Definition norm (q : F) : F := fmul (if feqb q f0 then f1 else q) f1.

  Lemma apply_error query start count e : parse query = PErr e -> app query start count = PErr e.
  Proof. intros H. unfold apply. rewrite H. reflexivity. Qed.

  Lemma apply_form query start count n ign : parse query = POk (n, ign) -> globs_good n ->
    exists r q, execute pipeline search_wids s n = Ok r /\ query_weight s (map term_text (terms n)) = Ok q /\
      app query start count = POk (option_map (divided (norm q)) r).
  Proof.
    intros Hp Hg. pose proof (query_executable space upper _ _ hyphen query n ign Hp) as He.
    destruct (execute_docs pipeline search_wids s D SO n He Hg) as (r & Er & _). destruct (QW (map term_text (terms n))) as [q Eq].
    exists r, q. splits; [exact Er|exact Eq|]. unfold apply. rewrite Hp. cbn [pbind]. rewrite Er. destruct r as [m|]; [|reflexivity].
    cbn [option_map]. destruct (is_empty m) eqn:Em.
    - apply is_empty_spec in Em. subst m. do 2 f_equal. apply smap_ext. intros d. unfold divided. rewrite get_mmap, !get_empty. reflexivity.
    - unfold normalise. rewrite Eq. cbn [bind]. fold (norm q). rewrite normalise_loop_ok by apply safe_norm. reflexivity.
  Qed.

  Lemma mem_divided q (m : smap Z F) d : mem d (divided q m) = mem d m.
  Proof. unfold mem, divided. rewrite get_mmap. destruct (get m d); reflexivity. Qed.

  Lemma apply_docs query start count n ign : parse query = POk (n, ign) -> globs_good n ->
    exists r, app query start count = POk r /\ (r = None <-> stopped pipeline n) /\
      forall m, r = Some m -> forall d, mem d m = true <->
        exists ws, get D d = Some ws /\ satisfies pipeline (phrase_found (slx s)) ws n.
  Proof.
    intros Hp Hg. pose proof (query_executable space upper _ _ hyphen query n ign Hp) as He.
    destruct (apply_form query start count n ign Hp Hg) as (r & q & Er & _ & Ea).
    destruct (execute_docs pipeline search_wids s D SO n He Hg) as (r' & Er' & Hn & Hd). rewrite Er in Er'. injection Er' as <-.
    eexists. split; [exact Ea|]. split.
    - rewrite <- Hn. destruct r; split; congruence || discriminate || reflexivity.
    - intros m Hm d. destruct r as [m0|]; [|discriminate]. injection Hm as <-. rewrite mem_divided. apply (Hd m0 eq_refl).
  Qed.

  Context {XF : ExactArith F}.
  Variable c : str -> list str -> F.
  Hypothesis SC : scores_ok pipeline search_wids s D c.
  Local Notation found := (index_found pipeline search_wids s).

  Lemma leaf_results x : match x with NGlob p => good_glob p /\ no_newline (slx s) | NAtom _ | NPhrase _ => True | _ => False end ->
    leaf_result pipeline (slx s) D c x (found x).
  Proof.
    intros Hx. pose proof (leaf_found _ _ _ _ _ (leaf_ok pipeline search_wids s D SO x Hx)) as (Ex & Hs & Hd).
    destruct x as [w|l|p| | |]; try contradiction; unfold leaf_result; unfold execute in Ex; cbn [executeQuery] in Ex.
    - cbn [stopped] in Hs. split; [apply Hs|]. intros Hne. destruct (found (NAtom w)) as [m|] eqn:Em; [|exfalso; apply Hne, Hs; reflexivity].
      exists m. split; [reflexivity|]. intros d. destruct (get D d) as [ws|] eqn:Ed.
      + exact (sc_search _ _ _ _ _ SC (TxStr w) m d ws Ex Ed).
      + apply mem_false. destruct (mem d m) eqn:E; [|reflexivity]. apply (Hd m eq_refl) in E as (ws & Ed' & _). congruence.
    - destruct (search_phrase pipeline search_wids s (TxList l)) as [m|] eqn:Em; [|discriminate]. injection Ex as Ex. exists m.
      split; [symmetry; exact Ex|]. intros d v. specialize (Hd m (eq_sym Ex) d). cbn [satisfies] in Hd. split.
      + intros Hv. assert (Hm : mem d m = true) by (apply mem_get; eauto). apply Hd in Hm as (ws & Ed & Hne & Hf). exists ws. splits; auto.
        exact (sc_phrase _ _ _ _ _ SC (TxList l) m d ws v Em Ed Hv).
      + intros (ws & Ed & Hne & Hf & ->). assert (Hm : mem d m = true) by (apply Hd; eauto). apply mem_get in Hm as [v Hv]. rewrite Hv. f_equal.
        exact (sc_phrase _ _ _ _ _ SC (TxList l) m d ws v Em Ed Hv).
    - destruct Hx as [Hg Hn]. destruct (sc_glob _ _ _ _ _ SC p Hg Hn) as (m & q & Em & Hq & Hw & Hm). rewrite Em in Ex. injection Ex as Ex.
      exists q, m. splits; [exact Hq|exact Hw|symmetry; exact Ex|]. intros d. destruct (get D d) as [ws|] eqn:Ed; [exact (Hm d ws Ed)|].
      apply mem_false. destruct (mem d m) eqn:E; [|reflexivity]. apply (Hd m (eq_sym Ex)) in E as (ws & Ed' & _). congruence.
  Qed.

  Lemma apply_scores query start count n ign : parse query = POk (n, ign) -> globs_good n ->
    exists found q,
      (forall x, In x (leaves n) -> leaf_result pipeline (slx s) D c x (found x)) /\
      query_weight s (map term_text (terms n)) = Ok q /\
      exists r, app query start count = POk r /\ (r = None <-> stopped pipeline n) /\
        forall m, r = Some m -> forall d,
          get m d = option_map (fun v => fdiv v (if feqb q f0 then f1 else q)) (score found d n).
  Proof.
    intros Hp Hg. pose proof (query_executable space upper _ _ hyphen query n ign Hp) as He.
    destruct (apply_form query start count n ign Hp Hg) as (r & q & Er & Eq & Ea).
    exists found, q. splits.
    - intros x Hx. apply leaf_results. pose proof (leaves_leaf n x Hx) as H. destruct x; auto. 
    - exact Eq.
    - eexists. split; [exact Ea|]. destruct (apply_docs query start count n ign Hp Hg) as (r' & Ea' & Hn & _). rewrite Ea in Ea'. injection Ea' as <-.
      split; [exact Hn|]. intros m Hm d. destruct r as [m0|]; [|discriminate]. injection Hm as <-.
      destruct (tree_scores (fun w => search pipeline search_wids s (TxStr w)) (fun ws => rmap Some (search_phrase pipeline search_wids s (TxList ws)))
        (fun p => rmap Some (search_glob search_wids s p)) XF n found He (index_found_ok _ _ _ n _ Er)) as (r' & Hr' & _ & Hd).
      change (execute pipeline search_wids s n = Ok r') in Hr'. rewrite Er in Hr'. injection Hr' as <-.
      unfold divided. rewrite get_mmap, (Hd m0 eq_refl d). unfold norm. rewrite fmul_1_r.
      destruct (score found d n); cbn [option_map]; [rewrite f32_exact|]; reflexivity.
  Qed.
End Apply.

(** ** The default pipeline *)
Section Default.
  Variable word_char : char -> bool.
  Variable lower : str -> str.
  Local Notation pipeline := (default_pipeline word_char lower).
  Hypothesis no_meta : forall c, word_char c = true -> ~ In c re_meta.
  Hypothesis low : lower_plain lower.

  Lemma plain_isGlob s : plain s -> isGlob s = false.
  Proof.
    intros H. unfold isGlob. destruct (existsb is_glob_char s) eqn:E; [|reflexivity]. exfalso.
    apply existsb_exists in E as (c & Hc & E). apply is_glob_char_iff in E. apply (H c Hc). unfold re_meta, chr_star, chr_qm in *. cbn [In]. lia.
  Qed.
  Lemma default_terms a p : In p (parseTerms pipeline (TxStr a)) -> exists g, p = lower g /\ In g (splitter_processGlob word_char [a]).
  Proof.
    unfold parseTerms, run_pipeline_glob, default_pipeline. cbn [fold_left processGlob process Splitter CaseNormalizer StopWordRemover text2list].
    unfold stop_process, remove_in, case_process. rewrite filter_In. intros [H _]. apply in_map_iff in H as (g & <- & H). eauto.
  Qed.
  Lemma default_good_glob a p : In p (parseTerms pipeline (TxStr a)) -> isGlob p = true -> good_glob p.
  Proof.
    intros Hp Hg. apply default_terms in Hp as (g & -> & Hin).
    destruct (glob_output_plain word_char [a] g no_meta Hin) as (prefix & rest & -> & Hne & Hpl & [->|(c & r & -> & Hc)]).
    - rewrite app_nil_r in Hg. rewrite (plain_isGlob _ (lower_no_meta _ low _ Hpl)) in Hg. discriminate.
    - destruct (lower_wildcard _ low prefix c r Hne Hpl Hc) as (a' & b' & E & Ha & Hpa). exists a', c, b'. auto.
  Qed.
  Lemma default_globs space upper query n ign : space 45 = false ->
    parseQuery space upper (fun t => parseTerms pipeline (TxStr t)) isGlob query = POk (n, ign) ->
    forall p, In (NGlob p) (leaves n) -> good_glob p.
  Proof.
    intros Hs H p Hp. apply (query_leaves space upper _ _ Hs) in H as (dropped & Hperm & _).
    assert (Hin : In (NGlob p) (leaves n ++ dropped)) by (apply in_app_iff; left; exact Hp).
    apply (Permutation_in _ Hperm) in Hin. unfold leaves_of in Hin. apply in_flat_map in Hin as (a & _ & Ha).
    unfold leaf in Ha. destruct (parseTerms pipeline (TxStr a)) as [|w [|w' l]] eqn:E; [destruct Ha| |destruct Ha as [Ha|[]]; discriminate].
    destruct (isGlob w) eqn:Eg; destruct Ha as [Ha|[]]; [|discriminate]. injection Ha as ->.
    apply (default_good_glob a); [rewrite E; left; reflexivity|exact Eg].
  Qed.
  Lemma default_words t w : In w (text_words pipeline t) -> exists g, w = lower g /\ Forall (fun c => word_char c = true) g.
  Proof.
    unfold text_words, text_strings, default_pipeline. cbn [fold_left process Splitter CaseNormalizer StopWordRemover].
    unfold stop_process, remove_in, case_process. rewrite filter_In. intros [H _]. apply in_map_iff in H as (g & <- & H). exists g. split; [reflexivity|].
    pose proof (process_words word_char (text_strings t)) as Hw. rewrite Forall_forall in Hw. apply (Hw g H).
  Qed.
  Lemma default_no_newline h : word_char 10 = false -> counter_ok h -> no_newline (lex_run pipeline h).
  Proof.
    intros H10 Hc w Hw. apply (lexicon_words pipeline h w Hc) in Hw. unfold words_of in Hw. apply in_flat_map in Hw as (o & _ & Ho).
    destruct o as [t|]; [|destruct Ho]. apply (default_words t) in Ho as (g & -> & Hg). apply (lower_newline _ low). intros H.
    rewrite Forall_forall in Hg. specialize (Hg 10 H). congruence.
  Qed.

  (** One word as a query *)
  Lemma default_word_query space upper u : space 45 = false -> (forall c, word_char c = true -> ordinary space c) -> word_char 45 = false ->
    u <> [] -> Forall (fun c => word_char c = true) u -> ~ In (upper u) operators ->
    plain (lower u) -> ~ In (lower u) english_stop_words ->
    parseQuery space upper (fun t => parseTerms pipeline (TxStr t)) isGlob u = POk (NAtom (lower u), []).
  Proof.
    intros Hs Hord H45 Hne Hu Hk Hlw Hst. set (pt := fun t => parseTerms pipeline (TxStr t)).
    assert (Et : tokenize space u = [u]).
    { apply (tokens_functional space Hs u); [apply tokens_ok, Hs|]. rewrite <- (app_nil_r u) at 1. apply tok_run; [exact Hne| | | |constructor].
      - eapply Forall_impl; [|exact Hu]. exact Hord.
      - discriminate.
      - intros -> q s' (b & -> & _) E. discriminate. }
    assert (Ep : pt u = [lower u]).
    { unfold pt, parseTerms, run_pipeline_glob, default_pipeline.
      cbn [fold_left processGlob process Splitter CaseNormalizer StopWordRemover text2list].
      rewrite glob_no_wildcards.
      - unfold splitter_process. cbn [flat_map]. rewrite (findall_one word_char u Hne Hu), app_nil_r. unfold case_process. cbn [map].
        destruct (stop_spec [] (lower u) []) as [_ H]. exact (H Hst).
      - intros s c [<-|[]] Hc. rewrite Forall_forall in Hu. specialize (Hu c Hc). apply no_meta in Hu. unfold re_meta, chr_star, chr_qm in *. cbn in Hu. lia. }
    assert (Eg : isGlob (lower u) = false) by (apply plain_isGlob, Hlw).
    assert (En : negated u = false).
    { destruct u as [|c u']; [reflexivity|]. cbn [negated]. apply Z.eqb_neq. intros ->. inversion Hu; congruence. }
    assert (Esym : symbols upper (tokenize space u) = [SAtom u]).
    { assert (Hk' : forall k, In k operators -> eqb (upper u) k = false).
      { intros k Hin. destruct (eqb (upper u) k) eqn:E; [|reflexivity]. apply eqb_eq in E. exfalso. apply Hk. rewrite E. exact Hin. }
      rewrite Et. unfold symbols. cbn [map]. unfold symbol. cbv zeta. rewrite !Hk' by (unfold operators; cbn [map In]; tauto). reflexivity. }
    rewrite (query_reads space upper pt isGlob Hs u (COr (CAnd (CAtoms u []) OpsNil) OrsNil)); [|rewrite Esym; reflexivity].
    assert (Em : m_and pt isGlob (CAnd (CAtoms u []) OpsNil) = MTree (Some (NAtom (lower u)))).
    { cbn [m_and m_term]. unfold leaves_of. cbn [flat_map]. unfold leaf. rewrite En, Ep, Eg. reflexivity. }
    rewrite Esym. unfold outcome.
    change (m_or pt isGlob (COr (CAnd (CAtoms u []) OpsNil) OrsNil))
      with (mbind (m_and pt isGlob (CAnd (CAtoms u []) OpsNil)) (fun n => m_ors pt isGlob (opt_list n) OrsNil)). rewrite Em. cbn [mbind opt_list m_ors join_or]. do 2 f_equal.
    unfold L_parser.ign_of, atoms. cbn [flat_map app filter]. rewrite Ep. reflexivity.
  Qed.
  Lemma default_own_words u text us : runs word_char text us -> In u us ->
    ~ In (lower u) english_stop_words -> In (lower u) (text_words pipeline (TxStr text)).
  Proof.
    intros Hr Hu Hst. apply runs_unique in Hr. unfold text_words, text_strings, default_pipeline.
    cbn [fold_left process Splitter CaseNormalizer StopWordRemover text2list]. unfold stop_process, remove_in, case_process, splitter_process.
    apply filter_In. split.
    - apply in_map. cbn [flat_map]. rewrite app_nil_r, <- Hr. exact Hu.
    - apply negb_true_iff. destruct (mem (lower u) stopdict) eqn:E; [|reflexivity]. apply stopdict_mem in E. contradiction.
  Qed.
  Lemma default_atom_words w : w <> [] -> Forall (fun c => word_char c = true) w -> lower w = w -> ~ In w english_stop_words ->
    text_words pipeline (TxStr w) = [w].
  Proof.
    intros Hne Hw Hl Hst. unfold text_words, text_strings, default_pipeline.
    cbn [fold_left process Splitter CaseNormalizer StopWordRemover text2list]. unfold splitter_process. cbn [flat_map].
    rewrite (findall_one word_char w Hne Hw), app_nil_r. unfold case_process. cbn [map]. rewrite Hl.
    destruct (stop_spec [] w []) as [_ H]. exact (H Hst).
  Qed.
End Default.

(** ** The two indexes *)
Section Indexes.
  Context {F : Type} {AF : Arith F} {SF : SafeArith F}.
  Variable space : char -> bool.
  Variable upper : str -> str.
  Hypothesis hyphen : space 45 = false.
  Local Notation parse qp := (parseQuery space upper (fun t => parseTerms qp (TxStr t)) isGlob).
  Local Notation docs p h := (docs_of p h).

  Section Okapi.
    Variables K1 B : F.
    Context {OF : OkapiSafe K1 B}.
    Variable pipeline : list elem.
    Variable h : list top.
    Hypothesis H : history_ok pipeline h.
    Hypothesis Hs : texts_small pipeline h.
    Local Notation st := (okapi_state pipeline h).
    Local Notation app qp query start count :=
      (apply space upper qp pipeline (python_search_wids K1 B) (okapi_query_weight pipeline K1) st query start count).
    Lemma okapi_qw ts : exists q, okapi_query_weight pipeline K1 st ts = Ok q.
    Proof. eexists. apply (okapi_weight_ok pipeline K1 h ts H). Qed.
    Lemma okapi_apply_docs qp query start count n ign : parse qp query = POk (n, ign) ->
      (forall p, In (NGlob p) (leaves n) -> good_glob p /\ no_newline (slx st)) ->
      exists r, app qp query start count = POk r /\ (r = None <-> stopped pipeline n) /\
        forall m, r = Some m -> forall d, mem d m = true <->
          exists ws, get (docs pipeline h) d = Some ws /\ satisfies pipeline (phrase_found (slx st)) ws n.
    Proof.
      exact (apply_docs space upper qp pipeline _ _ st _ hyphen (okapi_search_ok K1 B pipeline h H Hs) okapi_qw query start count n ign).
    Qed.
    Lemma okapi_apply_scores {XF : ExactArith F} qp query start count n ign : parse qp query = POk (n, ign) ->
      (forall p, In (NGlob p) (leaves n) -> good_glob p /\ no_newline (slx st)) ->
      let c := bm25 K1 B (docs pipeline h) (total_words (docs pipeline h) + words_cleared pipeline h) in
      let q := okapi_weight K1 (docs pipeline h) (flat_map (fun t => text_words pipeline (term_text t)) (terms n)) in
      exists found,
        (forall x, In x (leaves n) -> leaf_result pipeline (slx st) (docs pipeline h) c x (found x)) /\
        exists r, app qp query start count = POk r /\ (r = None <-> stopped pipeline n) /\
          forall m, r = Some m -> forall d,
            get m d = option_map (fun v => fdiv v (if feqb q f0 then f1 else q)) (score found d n).
    Proof.
      intros Hp Hg c q. destruct (apply_scores space upper qp pipeline _ _ st _ hyphen (okapi_search_ok K1 B pipeline h H Hs) okapi_qw
        c (okapi_scores_ok K1 B pipeline h H Hs) query start count n ign Hp Hg) as (found & q' & Hl & Hq & Hr).
      exists found. split; [exact Hl|]. rewrite (okapi_weight_exact pipeline K1 h _ H) in Hq. injection Hq as Hq.
      assert (E : q = q') by (subst q q'; f_equal; rewrite flat_map_concat_map, flat_map_concat_map, map_map; reflexivity).
      rewrite E. exact Hr.
    Qed.
  End Okapi.

  Section Cosine.
    Context {QF : SoundEq F}.
    Variable pipeline : list elem.
    Variable h : list top.
    Hypothesis H : history_ok pipeline h.
    Local Notation st := (cos_state (F := F) pipeline h).
    Local Notation app qp query start count :=
      (apply space upper qp pipeline cos_search_wids (cos_query_weight pipeline) st query start count).
    Lemma cos_qw ts : exists q, cos_query_weight pipeline st ts = Ok q.
    Proof. eexists. apply (cos_weight_ok pipeline h ts H). Qed.
    Lemma cos_apply_docs qp query start count n ign : parse qp query = POk (n, ign) ->
      (forall p, In (NGlob p) (leaves n) -> good_glob p /\ no_newline (slx st)) ->
      exists r, app qp query start count = POk r /\ (r = None <-> stopped pipeline n) /\
        forall m, r = Some m -> forall d, mem d m = true <->
          exists ws, get (docs pipeline h) d = Some ws /\ satisfies pipeline (phrase_found (slx st)) ws n.
    Proof.
      exact (apply_docs space upper qp pipeline _ _ st _ hyphen (cos_search_ok pipeline h H) cos_qw query start count n ign).
    Qed.
  End Cosine.
  Lemma cos_apply_scores {XF : ExactArith F} pipeline h (H : history_ok pipeline h) qp query start count n ign :
    parse qp query = POk (n, ign) ->
    (forall p, In (NGlob p) (leaves n) -> good_glob p /\ no_newline (slx (cos_state (F := F) pipeline h))) ->
    let q := cos_weight (docs pipeline h) (flat_map (fun t => text_words pipeline (term_text t)) (terms n)) in
    exists found,
      (forall x, In x (leaves n) -> leaf_result pipeline (slx (cos_state (F := F) pipeline h)) (docs pipeline h) (cosine (docs pipeline h)) x (found x)) /\
      exists r, apply space upper qp pipeline cos_search_wids (cos_query_weight pipeline) (cos_state (F := F) pipeline h) query start count = POk r /\
        (r = None <-> stopped pipeline n) /\
        forall m, r = Some m -> forall d,
          get m d = option_map (fun v => fdiv v (if feqb q f0 then f1 else q)) (score found d n).
  Proof.
    intros Hp Hg q. destruct (apply_scores space upper qp pipeline _ _ (cos_state (F := F) pipeline h) _ hyphen (cos_search_ok pipeline h H) (cos_qw pipeline h H)
      _ (cos_scores_ok pipeline h H) query start count n ign Hp Hg) as (found & q' & Hl & Hq & Hr).
    exists found. split; [exact Hl|]. rewrite (cos_weight_exact pipeline h _ H) in Hq. injection Hq as Hq.
    assert (E : q = q') by (subst q q'; f_equal; rewrite flat_map_concat_map, flat_map_concat_map, map_map; reflexivity).
    rewrite E. exact Hr.
  Qed.

  (** *** With the default pipeline *)
  Section DefaultIndexes.
    Variable word_char : char -> bool.
    Variable lower : str -> str.
    Local Notation pipeline := (default_pipeline word_char lower).
    Hypothesis no_meta : forall c, word_char c = true -> ~ In c re_meta.
    Hypothesis no_lf : word_char 10 = false.
    Hypothesis low : lower_plain lower.

    Lemma default_okapi (K1 B : F) (OF : OkapiSafe K1 B) h query start count : history_ok pipeline h -> texts_small pipeline h ->
      let res := apply space upper pipeline pipeline (python_search_wids K1 B) (okapi_query_weight pipeline K1)
                   (okapi_state pipeline h) query start count in
      match parse pipeline query with
      | PErr e => res = PErr e /\ (e = PRequired \/ e = PPositive \/ e = PCommon)
      | POk (n, _) => exists r, res = POk r /\ (r = None <-> stopped pipeline n) /\
          forall m, r = Some m -> forall d, mem d m = true <->
            exists ws, get (docs pipeline h) d = Some ws /\ satisfies pipeline (phrase_found (slx (okapi_state pipeline h))) ws n
      end.
    Proof.
      intros H Hs res. pose proof (query_total space upper (fun t => parseTerms pipeline (TxStr t)) isGlob hyphen query) as Ht.
      destruct (parse pipeline query) as [[n ign]|e] eqn:E.
      - apply (okapi_apply_docs K1 B pipeline h H Hs pipeline query start count n ign E). intros p Hp.
        split; [exact (default_globs word_char lower no_meta low space upper query n ign hyphen E p Hp)|].
        destruct (okapi_state_ok pipeline h H) as (_ & -> & _). apply (default_no_newline word_char lower low); [exact no_lf|apply H].
      - split; [unfold res, apply; rewrite E; reflexivity|]. destruct e; auto. destruct Ht.
    Qed.
    Lemma default_cosine (QF : SoundEq F) h query start count : history_ok pipeline h ->
      let res := apply space upper pipeline pipeline cos_search_wids (cos_query_weight pipeline)
                   (cos_state (F := F) pipeline h) query start count in
      match parse pipeline query with
      | PErr e => res = PErr e /\ (e = PRequired \/ e = PPositive \/ e = PCommon)
      | POk (n, _) => exists r, res = POk r /\ (r = None <-> stopped pipeline n) /\
          forall m, r = Some m -> forall d, mem d m = true <->
            exists ws, get (docs pipeline h) d = Some ws /\ satisfies pipeline (phrase_found (slx (cos_state (F := F) pipeline h))) ws n
      end.
    Proof.
      intros H res. pose proof (query_total space upper (fun t => parseTerms pipeline (TxStr t)) isGlob hyphen query) as Ht.
      destruct (parse pipeline query) as [[n ign]|e] eqn:E.
      - apply (cos_apply_docs pipeline h H pipeline query start count n ign E). intros p Hp.
        split; [exact (default_globs word_char lower no_meta low space upper query n ign hyphen E p Hp)|].
        destruct (cos_state_ok (F := F) pipeline h H) as (_ & -> & _). apply (default_no_newline word_char lower low); [exact no_lf|apply H].
      - split; [unfold res, apply; rewrite E; reflexivity|]. destruct e; auto. destruct Ht.
    Qed.
  End DefaultIndexes.

  (** *** Documents are found by their own words *)
  Section OwnWords.
    Variable word_char : char -> bool.
    Variable lower : str -> str.
    Local Notation pipeline := (default_pipeline word_char lower).
    Hypothesis no_meta : forall c, word_char c = true -> ~ In c re_meta.
    Hypothesis no_syntax : forall c, word_char c = true -> ordinary space c.
    Hypothesis no_hyphen : word_char 45 = false.
    Variables (text : str) (us : list str) (u : str).
    Hypothesis Hruns : runs word_char text us.
    Hypothesis Hu : In u us.
    Hypothesis Hkey : ~ In (upper u) operators.
    Hypothesis Hstop : ~ In (lower u) english_stop_words.
    Hypothesis Hne : lower u <> [].
    Hypothesis Hword : Forall (fun c => word_char c = true) (lower u).
    Hypothesis Hlow : lower (lower u) = lower u.

    Lemma own_parse : parse pipeline u = POk (NAtom (lower u), []).
    Proof.
      pose proof (runs_unique _ _ _ Hruns) as E. pose proof (findall_words word_char text) as Hf. rewrite <- E, Forall_forall in Hf.
      destruct (Hf u Hu) as [Hne' Hw].
      apply (default_word_query word_char lower no_meta space upper u hyphen no_syntax no_hyphen Hne' Hw Hkey); [|exact Hstop].
      intros c Hc. rewrite Forall_forall in Hword. apply no_meta, Hword, Hc.
    Qed.
    Lemma own_satisfies (phrase : list str -> list str -> Prop) : satisfies pipeline phrase (text_words pipeline (TxStr text)) (NAtom (lower u)).
    Proof.
      cbn [satisfies]. rewrite (default_atom_words word_char lower (lower u) Hne Hword Hlow Hstop). exists (lower u). split; [left; reflexivity|].
      exact (default_own_words word_char lower u text us Hruns Hu Hstop).
    Qed.
    Lemma own_not_stopped : ~ stopped pipeline (NAtom (lower u)).
    Proof. cbn [stopped]. rewrite (default_atom_words word_char lower (lower u) Hne Hword Hlow Hstop). discriminate. Qed.

    Lemma own_okapi (K1 B : F) (OF : OkapiSafe K1 B) h d start count : history_ok pipeline h -> texts_small pipeline h ->
      get (docs pipeline h) d = Some (text_words pipeline (TxStr text)) ->
      exists m, apply space upper pipeline pipeline (python_search_wids K1 B) (okapi_query_weight pipeline K1)
                   (okapi_state pipeline h) u start count = POk (Some m) /\ mem d m = true.
    Proof.
      intros H Hs Hd. destruct (okapi_apply_docs K1 B pipeline h H Hs pipeline u start count _ _ own_parse) as (r & Er & Hn & Hr).
      { intros p [Hp|[]]. discriminate. }
      destruct r as [m|]; [|exfalso; apply own_not_stopped, Hn; reflexivity]. exists m. split; [exact Er|].
      apply (Hr m eq_refl d). eexists. split; [exact Hd|]. apply own_satisfies.
    Qed.
    Lemma own_cosine (QF : SoundEq F) h d start count : history_ok pipeline h ->
      get (docs pipeline h) d = Some (text_words pipeline (TxStr text)) ->
      exists m, apply space upper pipeline pipeline cos_search_wids (cos_query_weight pipeline)
                   (cos_state (F := F) pipeline h) u start count = POk (Some m) /\ mem d m = true.
    Proof.
      intros H Hd. destruct (cos_apply_docs pipeline h H pipeline u start count _ _ own_parse) as (r & Er & Hn & Hr).
      { intros p [Hp|[]]. discriminate. }
      destruct r as [m|]; [|exfalso; apply own_not_stopped, Hn; reflexivity]. exists m. split; [exact Er|].
      apply (Hr m eq_refl d). eexists. split; [exact Hd|]. apply own_satisfies.
    Qed.
  End OwnWords.
End Indexes.
