(** * Lemmas: concurrent transactions on a cosine text index *)
From Verif Require Import L_widcode L_lexicon L_setops L_baseindex L_textsys L_okapi L_cosine L_search L_cossearch L_textapi L_indep L_costext
  L_zodb L_zlexicon L_zbase L_ztext L_zokapi L_zcround S_zcos S_text Ord.

Section Cos.
  Context {F : Type} {AF : Arith F} {SF : SafeArith F} {EF : SoundEq F}.
  Variable same : F -> F -> bool.
  Hypothesis same_eq : eq_test same.
  Variable pipeline : list elem.
  Local Notation words t := (text_words pipeline t).
  Local Notation exec := (siter (op_step pipeline (cos_index_doc (F := F) pipeline) base_unindex_doc)).
  Local Notation strict := (sysinv f32 cos_fr).
  Local Notation round := (rounded (f32 (F := F))).
  (** the invariant, of the index as it is read *)
  Local Notation cosinv s D := (sysinv (fun v : F => v) (fr_round f32 cos_fr) (mkSys (slx s) (round (six s))) D).
  Definition no_total (D : smap Z (list str)) : Z := 0.
  Definition any_text (ws : list str) : Prop := True.
  Definition any_ids (lx : lex) (wids : list Z) : Prop := True.

  Lemma cos_strict (s : sys F) D : cosinv s D -> exists s0, strict s0 D /\ alike f32 s s0.
  Proof.
    intros (B & K & I). cbn [slx six] in *. destruct (strict_of_lax f32 cos_fr _ _ I) as (ix0 & I0 & E). exists (mkSys (slx s) ix0).
    split; [split; [exact B|split; [exact K|exact I0]]|]. split; [reflexivity|symmetry; exact E].
  Qed.
  Lemma cos_lax (s : sys F) D : strict s D -> cosinv s D.
  Proof. intros (B & K & I). split; [exact B|]. split; [exact K|]. apply lax_of_strict, I. Qed.
  Lemma cos_inv_alike (s s0 : sys F) D : alike f32 s s0 -> cosinv s0 D -> cosinv s D.
  Proof. intros [-> ->] H. exact H. Qed.

  Lemma strict_same (s1 s2 : sys F) D : strict s1 D -> strict s2 D -> slx s1 = slx s2 -> cos_same pipeline s1 s2.
  Proof using SF EF.
    intros I1 I2 Hlx. destruct (cos_same_counts D _ _ I1 I2) as [C1 C2]. split; [|split; [|split; [|split]]].
    - split; [exact Hlx|]. split; [|split; [|split]]; try assumption.
      + intros d. rewrite (has_doc_D _ _ _ _ _ I1), (has_doc_D _ _ _ _ _ I2). reflexivity.
      + intros d. rewrite (get_words_D _ _ _ _ _ I1), (get_words_D _ _ _ _ _ I2), Hlx. reflexivity.
    - intros t. apply (indep_search pipeline f32 cos_fr cos_keys D); try assumption.
      intros ws. apply cos_same_scores; assumption.
    - intros t. apply (indep_phrase pipeline f32 cos_fr cos_keys D); try assumption.
      + intros ws. apply cos_same_scores; assumption.
      + intros d ws _ _. rewrite Hlx. reflexivity.
      + intros ws m. apply cos_scores_keys. exact I1.
    - intros p. apply (indep_glob f32 cos_fr cos_keys D); try assumption.
      intros ws. apply cos_same_scores; assumption.
    - intros ts. exact (cos_same_qweight pipeline D _ _ I1 I2 ts).
  Qed.

  Lemma cos_same_inv (s1 s2 : sys F) D : cosinv s1 D -> cosinv s2 D -> slx s1 = slx s2 -> cos_same pipeline s1 s2.
  Proof using SF EF.
    intros I1 I2 Hlx. destruct (cos_strict _ _ I1) as (t1 & J1 & A1). destruct (cos_strict _ _ I2) as (t2 & J2 & A2).
    apply (cos_same_trans pipeline _ t1); [apply alike_same, A1|]. apply (cos_same_trans pipeline _ t2); [|apply cos_same_sym, alike_same, A2].
    apply (strict_same _ _ D J1 J2). destruct A1 as [<- _], A2 as [<- _]. exact Hlx.
  Qed.
  Lemma cos_sim ops : sim f32 (exec ops).
  Proof.
    apply sim_ops.
    - intros d t. unfold cos_index_doc, cos_index_doc_with. apply sim_index; [apply sim_source|]. intros d'. apply sim_reindex, sim_source.
    - intros d. apply sim_unindex.
  Qed.

  Lemma cos_follows ops : follows (exec ops) (fold_left (lex_step pipeline) (lex_hist ops)).
  Proof.
    apply fol_ops.
    - intros d t. unfold cos_index_doc, cos_index_doc_with. apply fol_index. intros d'. apply fol_reindex.
    - intros d. apply keep_unindex.
  Qed.
  Lemma cos_gfold ops : forall D g, snd (gfold pipeline (fun _ g _ => g) (D, g) ops) = g.
  Proof. unfold gfold. induction ops as [|o ops IH]; intros D g; [reflexivity|]. cbn [fold_left fst snd]. apply IH. Qed.
  Lemma cos_exec_ok ops s D : cosinv s D -> docs_sound any_text D -> sound_ops any_text pipeline ops -> no_drift (lex_hist ops) ->
    small (fold_left (lex_step pipeline) (lex_hist ops) (slx s)) ->
    exists s', exec ops s = (s', Ok tt) /\ cosinv s' (fold_left (docs_step pipeline) ops D) /\
      (clears_t ops = false -> totaldoclen (six s') - totaldoclen (six s) = no_total (fold_left (docs_step pipeline) ops D) - no_total D).
  Proof using SF EF.
    intros Hi _ _ Hn Hs. destruct (cos_strict _ _ Hi) as (s0 & I0 & A).
    destruct (run_full pipeline f32 cos_fr (cos_index_doc pipeline) base_unindex_doc (fun _ g _ => g)
      (cos_index_full pipeline) cos_unindex_full (fun _ _ => eq_refl) (fun _ _ _ => eq_refl) ops s0 D (totaldoclen (six s0)))
      as (s' & E & _ & Hf & Ht).
    - split; [exact I0|reflexivity].
    - apply no_drift_ok, Hn.
    - destruct A as [<- _]. exact Hs.
    - destruct (cos_sim ops s s0 A) as [Er A']. rewrite E in Er, A'. cbn [fst snd] in Er, A'. destruct (exec ops s) as [s1 r]. cbn [fst snd] in Er, A'. subst r.
      exists s1. split; [reflexivity|]. rewrite gfold_docs in Hf. split; [exact (cos_inv_alike _ _ _ A' (cos_lax _ _ Hf))|]. intros _.
      destruct A as [_ A], A' as [_ A']. pose proof (alike_ix _ _ _ A) as (_ & _ & _ & _ & T & _). pose proof (alike_ix _ _ _ A') as (_ & _ & _ & _ & T' & _).
      rewrite T, T', Ht, cos_gfold. unfold no_total. lia.
  Qed.
  Lemma no_merged (o a b m : smap Z (list str)) : (forall d, merged (get o d) (get a d) (get b d) (get m d)) ->
    no_total m = no_total a + no_total b - no_total o.
  Proof. reflexivity. Qed.

  (** ** Schedules *)
  Local Notation run := (zc_run same pipeline).
  Local Notation commit := (zc_commit same pipeline).
  Local Notation docs st := (documents (zt_sys st)).
  Local Notation sok := (cos_schedule_ok pipeline).
  Local Notation good sch := (good_ops any_text pipeline (TTs sch)).
  Local Notation ok_version TT := (vinv (fun v : F => v) (fr_round f32 cos_fr) any_text round pipeline no_total TT).
  Local Notation ok_versions TT := (vsinv (fun v : F => v) (fr_round f32 cos_fr) any_text round pipeline no_total TT).

  Lemma cschedule_good sch t : sok sch -> In t sch -> good sch (snd t).
  Proof.
    intros (H1 & H2) Ht. assert (Hx : incl (op_texts (snd t)) (TTs sch)).
    { intros x Hx. unfold TTs, op_texts in *. apply in_flat_map in Hx as (o & Ho & Hx). apply in_flat_map. exists o. split; [|exact Hx].
      eapply all_ops_in; eauto. }
    split; [|split; [|exact Hx]].
    - intros d x Hin. exact Logic.I.
    - intros n Hn. apply (H1 n). revert Hn. apply lex_hist_in. intros o. apply all_ops_in, Ht.
  Qed.
  Lemma cschedule_few sch : sok sch -> Zlen (distinct (flat_map (text_words pipeline) (TTs sch))) < 2 ^ 28.
  Proof. intros (H1 & H3). rewrite (lex_hist_texts _ H1), words_of_texts in H3. exact H3. Qed.

  Lemma zc_effect TT vs i j ops st : Zlen (distinct (flat_map (text_words pipeline) TT)) < 2 ^ 28 ->
    ok_versions TT vs -> good_ops any_text pipeline TT ops -> commit vs i j ops = Some st ->
    exists cur snap, hd_error vs = Some cur /\ nth_error vs i = Some snap /\ effect pipeline no_total snap cur st ops /\ ok_version TT st.
  Proof using SF EF same_eq.
    intros Hf (Hc & Hv & Hg & _) Ho E.
    destruct (commit_effect same same_eq (fun v => v) (fr_round f32 cos_fr) any_ids (fun _ _ _ _ _ _ _ _ _ _ H => H) (round_keys f32 cos_fr cos_keys)
      any_text (fun _ _ _ _ _ => Logic.I) round (ix3_round f32 same same_eq) (fun _ => eq_refl) (fun _ _ => eq_refl) (fun _ => eq_refl) pipeline (cos_index_doc pipeline)
      base_unindex_doc no_total no_merged cos_follows cos_exec_ok TT Hf vs i j ops st Hc Hv Hg Ho E)
      as (cur & snap & H1 & H2 & H3 & H4 & _). exists cur, snap. auto.
  Qed.
  Lemma zc_versions sch sch' : sok (sch ++ sch') -> ok_versions (TTs (sch ++ sch')) (run sch).
  Proof using SF EF same_eq.
    intros H. apply (vsinv_run same same_eq (fun v => v) (fr_round f32 cos_fr) any_ids (fun _ _ _ _ _ _ _ _ _ _ H => H) (round_keys f32 cos_fr cos_keys)
      any_text (fun _ _ _ _ _ => Logic.I) round (ix3_round f32 same same_eq) (fun _ => eq_refl) (fun _ _ => eq_refl) (fun _ => eq_refl) (rounded_new f32) pipeline (cos_index_doc pipeline)
      base_unindex_doc no_total eq_refl no_merged cos_follows cos_exec_ok _ (cschedule_few _ H)).
    apply Forall_forall. intros t Ht. apply cschedule_good; [exact H|apply in_or_app; auto].
  Qed.

  (** *** What a commit does *)
  Lemma zc_commit_ok sch i j ops st : sok (sch ++ [(i, j, ops)]) -> commit (run sch) i j ops = Some st ->
    exists cur snap, hd_error (run sch) = Some cur /\ nth_error (run sch) i = Some snap /\
      committed (cleared_since_t snap cur) (clears_t ops) (docs snap) (docs cur) (fold_left (docs_step pipeline) ops (docs snap)) (docs st) /\
      slx (zt_sys st) = fold_left (lex_step pipeline) (lex_hist ops) (slx (zt_sys cur)).
  Proof.
    intros H E. assert (Ho : good (sch ++ [(i, j, ops)]) ops) by (apply (cschedule_good _ (i, j, ops) H), in_or_app; right; left; reflexivity).
    destruct (zc_effect _ _ _ _ _ _ (cschedule_few _ H) (zc_versions _ _ H) Ho E) as (cur & snap & H1 & H2 & (_ & H3 & H4 & _) & _).
    exists cur, snap. split; [exact H1|]. split; [exact H2|]. split; [exact H4|]. rewrite H3, (lex_hist_texts ops) by apply Ho. apply lex_texts_steps.
  Qed.
  Lemma zc_new_word sch i j ops cur snap w : sok (sch ++ [(i, j, ops)]) ->
    hd_error (run sch) = Some cur -> nth_error (run sch) i = Some snap -> cleared_since_t snap cur = false -> clears_t ops = false ->
    ~ In w (vocabulary (docs snap)) -> In w (vocabulary (docs cur)) -> In w (vocabulary (fold_left (docs_step pipeline) ops (docs snap))) ->
    commit (run sch) i j ops = None.
  Proof.
    intros H Hc Hs C1 C2 W1 W2 W3. destruct (commit (run sch) i j ops) as [st|] eqn:E; [exfalso|reflexivity].
    assert (Ho : good (sch ++ [(i, j, ops)]) ops) by (apply (cschedule_good _ (i, j, ops) H), in_or_app; right; left; reflexivity).
    destruct (zc_effect _ _ _ _ _ _ (cschedule_few _ H) (zc_versions _ _ H) Ho E) as (cur' & snap' & H1 & H2 & (H3 & _) & _).
    rewrite Hc in H1. injection H1 as <-. rewrite Hs in H2. injection H2 as <-. exact (H3 C1 C2 w W1 W2 W3).
  Qed.


  (** *** Every version is the index of a single client *)
  Lemma cos_history TT st : Zlen (distinct (flat_map (text_words pipeline) TT)) < 2 ^ 28 -> ok_version TT st ->
    exists h, history_ok pipeline h /\ no_clear h /\ docs_of pipeline h = docs st /\ cos_same pipeline (cos_state pipeline h) (zt_sys st).
  Proof using SF EF.
    intros Hf (Hi & Hs & Hg & Ht & Hx & (T & HT & Hlx)).
    destruct (choose pipeline TT (elts (docs st))) as (l & El & Hl); [intros d ws Hin; apply (Hx d), get_In, Hin|].
    assert (Hd : docs_of pipeline (replay T l) = docs st).
    { unfold docs_of, replay. rewrite fold_left_app, docs_other, replay_docs, El. apply fold_of_list. }
    assert (Hlr : lex_run pipeline (lex_hist (replay T l)) = slx (zt_sys st)).
    { rewrite lex_replay. unfold lex_run. rewrite <- lex_texts_steps, lex_texts_steps, map_app, fold_left_app, <- !lex_texts_steps.
      rewrite Hlx. unfold lex_run. rewrite <- lex_texts_steps. apply known_texts.
      - rewrite lex_texts_steps. change (bij (lex_run pipeline (map LText T))). rewrite <- Hlx. apply Hi.
      - intros t w Ht' Hw. rewrite lex_texts_steps. change (exists i, get (lwids (lex_run pipeline (map LText T))) w = Some i). rewrite <- Hlx.
        apply in_map_iff in Ht' as ([d t'] & E & Hp). cbn [snd] in E. subst t'.
        assert (Hin : In (d, words t) (elts (docs st))).
        { rewrite <- El. apply in_map_iff. exists (d, t). auto. }
        apply get_In in Hin. destruct Hi as (_ & K & _). exact (K d _ Hin w Hw). }
    assert (Hh : history_ok pipeline (replay T l)).
    { split; [rewrite lex_replay; apply no_drift_ok, no_drift_texts|]. rewrite Hlr, Hlx. intros i Hin. apply keys_In in Hin as [w Hw].
      exact (dense_small pipeline TT Hf T HT i w Hw). }
    assert (Hn : no_clear (replay T l)).
    { intros Hin. apply in_app_or in Hin as [Hin|Hin]; apply in_map_iff in Hin as (x & E & _); discriminate. }
    exists (replay T l). split; [exact Hh|]. split; [exact Hn|]. split; [exact Hd|].
    destruct (cos_state_ok pipeline _ Hh) as (_ & L1 & I1). rewrite Hd in I1. rewrite Hlr in L1. exact (cos_same_inv _ _ _ (cos_lax _ _ I1) Hi L1).
  Qed.
  Lemma zc_consistent sch st : sok sch -> In st (run sch) ->
    exists h, history_ok pipeline h /\ no_clear h /\ docs_of pipeline h = docs st /\ cos_same pipeline (cos_state pipeline h) (zt_sys st).
  Proof using SF EF same_eq.
    intros H Hin. pose proof (zc_versions sch []) as Hv. rewrite app_nil_r in Hv. destruct (Hv H) as (_ & Hf & _).
    exact (cos_history _ st (cschedule_few _ H) (proj1 (Forall_forall _ _) Hf st Hin)).
  Qed.
  Lemma zc_run_snoc sch t : run (sch ++ [t]) = zt_step same pipeline (cos_index_doc pipeline) base_unindex_doc (run sch) t.
  Proof. unfold zc_run, zt_run. apply fold_left_app. Qed.
  Lemma cexec_ok TT cur ops : Zlen (distinct (flat_map (text_words pipeline) TT)) < 2 ^ 28 ->
    ok_version TT cur -> good_ops any_text pipeline TT ops ->
    exists s', exec ops (zt_sys cur) = (s', Ok tt) /\ cosinv s' (fold_left (docs_step pipeline) ops (docs cur)) /\
      slx s' = lex_texts pipeline (op_texts ops) (slx (zt_sys cur)).
  Proof using SF EF.
    intros Hf (Hi & Hs & _ & _ & _ & (T & HT & Hlx)) (G1 & G2 & G3).
    destruct (cos_exec_ok ops (zt_sys cur) (docs cur) Hi Hs G1 G2) as (s' & E & I' & _).
    { rewrite Hlx, (lex_hist_texts ops G2). unfold lex_run. rewrite <- fold_left_app, <- map_app. apply (dense_small pipeline TT Hf).
      intros t Ht. apply in_app_or in Ht as [Ht|Ht]; auto. }
    exists s'. split; [exact E|]. split; [exact I'|]. rewrite (cos_follows ops _ _ _ E), (lex_hist_texts ops G2). symmetry. apply lex_texts_steps.
  Qed.
  Lemma cschedule_prefix a b : sok (a ++ b) -> sok a.
  Proof.
    unfold cos_schedule_ok, all_ops. rewrite map_app, concat_app, lex_hist_app. intros (H1 & H3). split.
    - intros n Hn. apply (H1 n), in_or_app. auto.
    - eapply Z.le_lt_trans; [|exact H3]. unfold Zlen. apply inj_le. pose proof (distinct_spec (words_of pipeline (lex_hist (concat (map snd a))))) as [N1 I1].
      apply NoDup_incl_length; [exact N1|]. intros w Hw. apply distinct_spec. apply I1 in Hw. unfold words_of in *. rewrite flat_map_app. apply in_or_app. auto.
  Qed.

  (** *** Transactions that do not get in each other's way *)
  Lemma zc_alone sch j ops cur : sok (sch ++ [(0%nat, j, ops)]) -> hd_error (run sch) = Some cur ->
    commit (run sch) 0 j ops = zc_exec pipeline ops cur /\
    commit (run sch) 0 j ops <> None.
  Proof.
    intros H Hc. assert (Ho : good (sch ++ [(0%nat, j, ops)]) ops) by (apply (cschedule_good _ (0%nat, j, ops) H), in_or_app; right; left; reflexivity).
    pose proof (zc_versions _ _ H) as Hv. assert (E : commit (run sch) 0 j ops = zc_exec pipeline ops cur).
    { exact (commit_alone same same_eq (fun v => v) (fr_round f32 cos_fr) any_text round pipeline (cos_index_doc pipeline) base_unindex_doc no_total cos_follows cos_exec_ok _ _ j ops cur Hv Ho Hc). }
    split; [exact E|]. rewrite E. destruct Hv as (_ & Hf & _).
    assert (Hin : In cur (run sch)) by (destruct (run sch); [discriminate|injection Hc as ->; left; reflexivity]).
    destruct (cexec_ok _ cur ops (cschedule_few _ H) (proj1 (Forall_forall _ _) Hf cur Hin) Ho) as (s' & Ex & _).
    unfold zc_exec, zt_exec. rewrite Ex. discriminate.
  Qed.
  Lemma zc_one_client sch : (forall t, In t sch -> fst (fst t) = 0%nat) -> sok sch ->
    exists cur, hd_error (run sch) = Some cur /\ zt_sys cur = cos_state (F := F) pipeline (all_ops sch) /\ length (run sch) = S (length sch).
  Proof.
    intros H0 Hok. assert (G : forall pre post, sch = pre ++ post -> exists cur, hd_error (run pre) = Some cur /\
      exec (all_ops pre) (mkSys lex_new ix_new) = (zt_sys cur, Ok tt) /\ length (run pre) = S (length pre)).
    { induction pre as [|t pre IH] using rev_ind; intros post E.
      - exists zt_new. repeat split.
      - rewrite <- app_assoc in E. destruct (IH _ E) as (cur & Hc & Hr & Hl). assert (Ht : In t sch) by (rewrite E; apply in_or_app; right; left; reflexivity).
        destruct t as [[i j] ops]. specialize (H0 _ Ht). cbn [fst] in H0. subst i. rewrite zc_run_snoc, all_ops_snoc. unfold zt_step. cbn [fst snd].
        change (zt_commit same pipeline (cos_index_doc pipeline) base_unindex_doc (run pre) 0 j ops) with (commit (run pre) 0 j ops).
        destruct (zc_alone pre j ops cur) as [A1 A2]; [|exact Hc|].
        { apply (cschedule_prefix _ post). rewrite <- app_assoc, <- E. exact Hok. }
        destruct (commit (run pre) 0 j ops) as [st|] eqn:Ec; [|destruct (A2 eq_refl)]. clear A2. exists st. split; [reflexivity|].
        unfold zc_exec, zt_exec in A1. destruct (exec ops (zt_sys cur)) as [own [[]|e]] eqn:Ex; [|discriminate]. injection A1 as ->. cbn [zt_sys]. split.
        + rewrite siter_two, Hr. exact Ex.
        + cbn [length]. rewrite Hl, app_length. cbn [length]. lia. }
    destruct (G sch []) as (cur & H1 & H2 & H3); [rewrite app_nil_r; reflexivity|]. exists cur. split; [exact H1|]. split; [|exact H3].
    unfold cos_state, cos_run, run_ops. rewrite H2. reflexivity.
  Qed.

  (** nobody else changed the documents concerned *)
  Lemma zc_serial sch i j ops st cur snap : sok (sch ++ [(i, j, ops)]) -> commit (run sch) i j ops = Some st ->
    hd_error (run sch) = Some cur -> nth_error (run sch) i = Some snap -> cleared_since_t snap cur = false -> clears_t ops = false ->
    (forall d, In d (docs_of_t ops) -> get (docs cur) d = get (docs snap) d) ->
    exists own, zc_exec pipeline ops cur = Some own /\ cos_same pipeline (zt_sys st) (zt_sys own).
  Proof.
    intros H E Hc Hs C1 C2 Hd. assert (Ho : good (sch ++ [(i, j, ops)]) ops) by (apply (cschedule_good _ (i, j, ops) H), in_or_app; right; left; reflexivity).
    pose proof (zc_versions _ _ H) as Hv. destruct (zc_effect _ _ _ _ _ _ (cschedule_few _ H) Hv Ho E) as (cur' & snap' & H1 & H2 & (_ & H3 & H4 & H5) & Hst).
    rewrite Hc in H1. injection H1 as <-. rewrite Hs in H2. injection H2 as <-. destruct Hv as (_ & Hf & _).
    assert (Hin : In cur (run sch)) by (destruct (run sch); [discriminate|injection Hc as ->; left; reflexivity]).
    destruct (cexec_ok _ cur ops (cschedule_few _ H) (proj1 (Forall_forall _ _) Hf cur Hin) Ho) as (s' & Ex & I' & L').
    exists (mkZT s' (zt_gen cur + count_clears ops)). split; [unfold zc_exec, zt_exec; rewrite Ex; reflexivity|]. cbn [zt_sys].
    assert (Hdocs : docs st = fold_left (docs_step pipeline) ops (docs cur)).
    { apply smap_ext. intros d. unfold committed in H4. rewrite C1, C2 in H4. destruct (H4 d) as [P1 P2].
      destruct (in_dec Z.eq_dec d (docs_of_t ops)) as [Hin'|Hout].
      - rewrite (docs_local pipeline ops (docs cur) (docs snap) d (Hd d Hin')).
        destruct (option_eq (get (fold_left (docs_step pipeline) ops (docs snap)) d) (get (docs snap) d)) as [E1|E1].
        + rewrite (P1 E1), E1. apply Hd, Hin'.
        + apply (P2 E1).
      - rewrite P1 by (apply docs_untouched; assumption). symmetry. apply docs_untouched; assumption. }
    destruct Hst as (Ist & Sst & _). rewrite <- Hdocs in I'.
    assert (Hl : slx (zt_sys st) = slx s') by (rewrite H3, L'; reflexivity).
    exact (cos_same_inv _ _ _ Ist I' Hl).
  Qed.
End Cos.
