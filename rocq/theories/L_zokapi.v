(** * Lemmas: concurrent transactions on an Okapi text index *)
From Verif Require Import L_widcode L_lexicon L_setops L_baseindex L_textsys L_okapi L_search L_textapi L_indeptext L_zodb L_zlexicon L_zbase L_ztext S_ztext S_text Ord.

Definition short {A} (l : list A) : Prop := Zlen l <= 2 ^ 24.
Lemma okapi_inj wids wids' w v v' : short wids -> short wids' ->
  get (fst (okapi_fr wids)) w = Some v -> get (fst (okapi_fr wids')) w = Some v' -> f32Z v = f32Z v' -> v = v'.
Proof.
  assert (G : forall wids v, short wids -> get (fst (okapi_fr wids)) w = Some v -> f32Z v = v).
  { clear. intros wids v Hs. cbn [okapi_fr fst]. rewrite count_words_get. destruct (existsb _ _); [|discriminate]. intros [= <-].
    apply f32Z_small. pose proof (filter_len (eqb w) wids) as Hf. unfold short, Zlen in *. lia. }
  intros S1 S2 G1 G2. rewrite (G _ _ S1 G1), (G _ _ S2 G2). auto.
Qed.
Lemma short_ids lx ws : bij lx -> (forall w, In w ws -> exists i, get (lwids lx) w = Some i) -> short ws -> short (ids lx ws).
Proof. intros _ _. unfold short. rewrite ids_len. auto. Qed.

Lemma siter_two {S A} (f : A -> sx S unit) a b s : siter f (a ++ b) s =
  match siter f a s with (s', Ok _) => siter f b s' | (s', Raise e) => (s', Raise e) end.
Proof.
  revert s; induction a as [|x a IH]; intros s; [reflexivity|]. cbn [app siter]. unfold sbind. destruct (f x s) as [s1 [[]|e]]; [apply IH|reflexivity].
Qed.

Section Okapi.
  Variable pipeline : list elem.
  Local Notation words t := (text_words pipeline t).
  Local Notation exec := (siter (op_step pipeline (okapi_index_doc pipeline) okapi_unindex_doc)).
  Local Notation okinv := (sysinv f32Z okapi_fr).

  Lemma okapi_follows ops : follows (exec ops) (fold_left (lex_step pipeline) (lex_hist ops)).
  Proof.
    apply fol_ops.
    - intros d t. unfold okapi_index_doc, okapi_index_doc_with. apply fol_then.
      + apply fol_index. intros d'. unfold okapi_reindex.
        apply keep_then; [apply keep_lift|]. intros x. apply keep_then; [apply keep_on|]. intros _. apply fol_reindex.
      + intros n. apply keep_bind; [apply keep_on|]. intros _. apply keep_ret.
    - intros d. unfold okapi_unindex_doc. apply fol_test; [intros s s' x [= <- _]; reflexivity|].
      apply keep_bind; [apply keep_lift|]. intros x. apply keep_bind; [apply keep_on|]. intros _. apply keep_unindex.
  Qed.
  Lemma okapi_gfold ops : forall D g, docs_sound short D -> sound_ops short pipeline ops -> clears_t ops = false ->
    snd (gfold pipeline (okapi_g pipeline) (D, g) ops) - g = total_words (fold_left (docs_step pipeline) ops D) - total_words D.
  Proof.
    induction ops as [|o ops IH]; intros D g HD Ho Hc; [cbn; lia|]. unfold clears_t in Hc. cbn [existsb] in Hc. apply orb_false_iff in Hc as [Hc1 Hc].
    change (gfold pipeline (okapi_g pipeline) (D, g) (o :: ops)) with (gfold pipeline (okapi_g pipeline) (docs_step pipeline D o, okapi_g pipeline D g o) ops).
    cbn [fold_left].
    assert (HD' : docs_sound short (docs_step pipeline D o)).
    { apply (docs_sounds short pipeline [o]); [exact HD|]. intros d t [->|[]]. apply (Ho d t). left. reflexivity. }
    pose proof (IH (docs_step pipeline D o) (okapi_g pipeline D g o) HD' (fun d t H => Ho d t (or_intror H)) Hc) as H.
    assert (Hf : forall d, f32_at D d = len_at D d).
    { intros d. unfold f32_at, len_at. destruct (get D d) as [ws|] eqn:E; [|reflexivity]. apply f32Z_small. specialize (HD _ _ E). unfold short, Zlen in *. lia. }
    assert (E : okapi_g pipeline D g o - g = total_words (docs_step pipeline D o) - total_words D); [|lia].
    destruct o as [d t|d| |lo]; cbn [okapi_g docs_step]; [| |discriminate|lia].
    - rewrite Hf, total_put. lia.
    - rewrite Hf, total_del. lia.
  Qed.
  Lemma no_drift_ok h : no_drift h -> counter_ok h.
  Proof. intros H n Hn. destruct (H n Hn). Qed.
  Lemma okapi_exec_ok ops s D : okinv s D -> docs_sound short D -> sound_ops short pipeline ops -> no_drift (lex_hist ops) ->
    small (fold_left (lex_step pipeline) (lex_hist ops) (slx s)) ->
    exists s', exec ops s = (s', Ok tt) /\ okinv s' (fold_left (docs_step pipeline) ops D) /\
      (clears_t ops = false -> totaldoclen (six s') - totaldoclen (six s) = total_words (fold_left (docs_step pipeline) ops D) - total_words D).
  Proof.
    intros Hi HD Ho Hn Hs.
    destruct (run_full pipeline f32Z okapi_fr (okapi_index_doc pipeline) okapi_unindex_doc (okapi_g pipeline)
      (okapi_index_full pipeline) (okapi_unindex_full pipeline) (fun _ _ => eq_refl) (fun _ _ _ => eq_refl) ops s D (totaldoclen (six s)))
      as (s' & E & _ & Hf & Ht).
    - split; [exact Hi|reflexivity].
    - apply no_drift_ok, Hn.
    - exact Hs.
    - exists s'. split; [exact E|]. rewrite gfold_docs in Hf. split; [exact Hf|]. intros Hc. rewrite Ht. apply okapi_gfold; assumption.
  Qed.
  Lemma total_empty : total_words empty = 0.
  Proof. reflexivity. Qed.

  (** ** Schedules *)
  Local Notation run := (zo_run pipeline).
  Local Notation docs st := (documents (zt_sys st)).
  Definition TTs (sch : list (nat * nat * list top)) : list ltext := op_texts (all_ops sch).
  Local Notation good sch := (good_ops short pipeline (TTs sch)).
  Local Notation ok_versions sch := (vsinv f32Z okapi_fr short (fun ix => ix) pipeline total_words (TTs sch)).

  Lemma all_ops_in sch t o : In t sch -> In o (snd t) -> In o (all_ops sch).
  Proof. intros H1 H2. unfold all_ops. apply in_concat. exists (snd t). split; [apply in_map, H1|exact H2]. Qed.
  Lemma lex_hist_in ops ops' : incl ops ops' -> incl (lex_hist ops) (lex_hist ops').
  Proof. intros H x Hx. unfold lex_hist in *. apply in_flat_map in Hx as (o & Ho & Hx). apply in_flat_map. eauto. Qed.
  Lemma schedule_good sch t : schedule_ok pipeline sch -> In t sch -> good sch (snd t).
  Proof.
    intros (H1 & H2 & _) Ht. split; [|split].
    - intros d x Hx. apply (H2 d x). eapply all_ops_in; eauto.
    - intros n Hn. apply (H1 n). revert Hn. apply lex_hist_in. intros o. apply all_ops_in, Ht.
    - intros x Hx. unfold TTs, op_texts in *. apply in_flat_map in Hx as (o & Ho & Hx). apply in_flat_map. exists o. split; [|exact Hx].
      eapply all_ops_in; eauto.
  Qed.
  Lemma schedule_few sch : schedule_ok pipeline sch -> Zlen (distinct (flat_map (text_words pipeline) (TTs sch))) < 2 ^ 28.
  Proof. intros (H1 & _ & H3). rewrite (lex_hist_texts _ H1), words_of_texts in H3. exact H3. Qed.

  (** the generic lemmas for this index *)
  Lemma zo_effect TT vs i j ops st : Zlen (distinct (flat_map (text_words pipeline) TT)) < 2 ^ 28 ->
    vsinv f32Z okapi_fr short (fun ix => ix) pipeline total_words TT vs -> good_ops short pipeline TT ops -> zo_commit pipeline vs i j ops = Some st ->
    exists cur snap, hd_error vs = Some cur /\ nth_error vs i = Some snap /\ effect pipeline total_words snap cur st ops /\
      vinv f32Z okapi_fr short (fun ix => ix) pipeline total_words TT st.
  Proof.
    intros Hf (Hc & Hv & Hg & _) Ho E.
    destruct (commit_effect Z.eqb Z.eqb_eq f32Z okapi_fr (fun _ => short) (fun _ => okapi_inj) okapi_keys short short_ids (fun ix => ix) (fun _ _ _ _ _ E => E) (fun _ => eq_refl) (fun _ _ => eq_refl) (fun _ => eq_refl) pipeline (okapi_index_doc pipeline)
      okapi_unindex_doc total_words total_merged okapi_follows okapi_exec_ok TT Hf vs i j ops st Hc Hv Hg Ho E)
      as (cur & snap & H1 & H2 & H3 & H4 & _). exists cur, snap. auto.
  Qed.
  Lemma zo_versions sch sch' : schedule_ok pipeline (sch ++ sch') -> ok_versions (sch ++ sch') (run sch).
  Proof.
    intros H. apply (vsinv_run Z.eqb Z.eqb_eq f32Z okapi_fr (fun _ => short) (fun _ => okapi_inj) okapi_keys short short_ids (fun ix => ix) (fun _ _ _ _ _ E => E) (fun _ => eq_refl) (fun _ _ => eq_refl) (fun _ => eq_refl) eq_refl pipeline (okapi_index_doc pipeline)
      okapi_unindex_doc total_words total_empty total_merged okapi_follows okapi_exec_ok _ (schedule_few _ H)).
    apply Forall_forall. intros t Ht. apply schedule_good; [exact H|apply in_or_app; auto].
  Qed.

  (** *** What a commit does *)
  Lemma zo_commit_ok sch i j ops st : schedule_ok pipeline (sch ++ [(i, j, ops)]) -> zo_commit pipeline (run sch) i j ops = Some st ->
    exists cur snap, hd_error (run sch) = Some cur /\ nth_error (run sch) i = Some snap /\
      committed (cleared_since_t snap cur) (clears_t ops) (docs snap) (docs cur) (fold_left (docs_step pipeline) ops (docs snap)) (docs st) /\
      slx (zt_sys st) = fold_left (lex_step pipeline) (lex_hist ops) (slx (zt_sys cur)).
  Proof.
    intros H E. assert (Ho : good (sch ++ [(i, j, ops)]) ops) by (apply (schedule_good _ (i, j, ops) H), in_or_app; right; left; reflexivity).
    destruct (zo_effect _ _ _ _ _ _ (schedule_few _ H) (zo_versions _ _ H) Ho E) as (cur & snap & H1 & H2 & (_ & H3 & H4 & _) & _).
    exists cur, snap. split; [exact H1|]. split; [exact H2|]. split; [exact H4|]. rewrite H3, (lex_hist_texts ops) by apply Ho. apply lex_texts_steps.
  Qed.
  Lemma zo_new_word sch i j ops cur snap w : schedule_ok pipeline (sch ++ [(i, j, ops)]) ->
    hd_error (run sch) = Some cur -> nth_error (run sch) i = Some snap -> cleared_since_t snap cur = false -> clears_t ops = false ->
    ~ In w (vocabulary (docs snap)) -> In w (vocabulary (docs cur)) -> In w (vocabulary (fold_left (docs_step pipeline) ops (docs snap))) ->
    zo_commit pipeline (run sch) i j ops = None.
  Proof.
    intros H Hc Hs C1 C2 W1 W2 W3. destruct (zo_commit pipeline (run sch) i j ops) as [st|] eqn:E; [exfalso|reflexivity].
    assert (Ho : good (sch ++ [(i, j, ops)]) ops) by (apply (schedule_good _ (i, j, ops) H), in_or_app; right; left; reflexivity).
    destruct (zo_effect _ _ _ _ _ _ (schedule_few _ H) (zo_versions _ _ H) Ho E) as (cur' & snap' & H1 & H2 & (H3 & _) & _).
    rewrite Hc in H1. injection H1 as <-. rewrite Hs in H2. injection H2 as <-. exact (H3 C1 C2 w W1 W2 W3).
  Qed.

  (** *** Every version is the index of a single client *)
  Definition replay (T : list ltext) (l : list (Z * ltext)) : list top :=
    map TOther (map LText T) ++ map (fun p => TIndex (fst p) (snd p)) l.
  Lemma replay_docs l : forall D, fold_left (docs_step pipeline) (map (fun p => TIndex (fst p) (snd p)) l) D =
    fold_left (fun m kv => put (fst kv) (snd kv) m) (map (fun p => (fst p, words (snd p))) l) D.
  Proof. induction l as [|p l IH]; intros D; [reflexivity|]. cbn [map fold_left docs_step fst snd]. apply IH. Qed.
  Lemma lex_replay T l : lex_hist (replay T l) = map LText (T ++ map snd l).
  Proof.
    unfold replay. rewrite lex_hist_app, lex_hist_other, map_app. f_equal. induction l as [|p l IH]; [reflexivity|]. cbn [map lex_hist flat_map app]. f_equal. exact IH.
  Qed.
  Lemma known_texts lx ts : bij lx -> (forall t w, In t ts -> In w (words t) -> exists i, get (lwids lx) w = Some i) ->
    lex_texts pipeline ts lx = lx.
  Proof.
    intros Hb Hk. rewrite lex_texts_fold by exact Hb.
    assert (G : forall l, (forall w, In w l -> exists i, get (lwids lx) w = Some i) -> fold_left (fun lx w => fst (getWordIdCreate w lx)) l lx = lx).
    { induction l as [|w l IH]; intros Hl; [reflexivity|]. cbn [fold_left]. destruct (Hl w (or_introl eq_refl)) as [i Hi].
      rewrite (add_known w lx i Hi). apply IH. intros w' Hw'. apply Hl. right. exact Hw'. }
    apply G. intros w Hw. apply in_flat_map in Hw as (t & Ht & Hw). eauto.
  Qed.
  Lemma choose TT (l : list (Z * list str)) : (forall d ws, In (d, ws) l -> exists t, In t TT /\ words t = ws) ->
    exists l', map (fun p => (fst p, words (snd p))) l' = l /\ forall p, In p l' -> In (snd p) TT.
  Proof.
    induction l as [|[d ws] l IH]; intros H.
    - exists []. split; [reflexivity|intros p []].
    - destruct IH as (l' & E & Hl); [intros d' ws' Hin; apply (H d'); right; exact Hin|]. destruct (H d ws (or_introl eq_refl)) as (t & Ht & Hw).
      exists ((d, t) :: l'). split; [cbn; rewrite Hw, E; reflexivity|]. intros p [<-|Hp]; auto.
  Qed.
  Lemma fold_of_list (D : smap Z (list str)) : fold_left (fun m kv => put (fst kv) (snd kv) m) (elts D) empty = D.
  Proof. exact (of_list_of_elts D). Qed.

  Lemma option_eq (a b : option (list str)) : a = b \/ a <> b.
  Proof.
    destruct a as [x|], b as [y|]; try (right; discriminate); [|left; reflexivity]. destruct (eqb x y) eqn:E.
    - left. f_equal. apply eqb_eq, E.
    - right. intros [= ->]. apply eqb_neq in E. contradiction.
  Qed.
  Lemma weight_small lx ws w x : short ws -> weight_in okapi_fr lx ws w = Some x -> f32Z x = x.
  Proof.
    intros Hs Hw. apply f32Z_small. unfold weight_in, okapi_fr in Hw. cbn [fst] in Hw. rewrite count_words_get in Hw.
    destruct (existsb _ _); [|discriminate]. injection Hw as <-. unfold short, Zlen in *.
    pose proof (filter_len (eqb (get_wid lx w)) (ids lx ws)) as Hfl. unfold ids in Hfl at 2. rewrite map_length in Hfl. lia.
  Qed.
  Lemma as_history TT st : Zlen (distinct (flat_map (text_words pipeline) TT)) < 2 ^ 28 ->
    vinv f32Z okapi_fr short (fun ix => ix) pipeline total_words TT st ->
    exists h, history_ok pipeline h /\ texts_small pipeline h /\ no_clear h /\ docs_of pipeline h = docs st /\
      slx (okapi_state pipeline h) = slx (zt_sys st) /\ like (six (okapi_state pipeline h)) (six (zt_sys st)) /\
      (zt_gen st = 0 -> totaldoclen (six (okapi_state pipeline h)) = totaldoclen (six (zt_sys st))).
  Proof.
    intros Hf (Hi & Hs & Hg & Ht & Hx & (T & HT & Hlx)).
    destruct (choose TT (elts (docs st))) as (l & El & Hl); [intros d ws Hin; apply (Hx d), get_In, Hin|].
    assert (Hd : docs_of pipeline (replay T l) = docs st).
    { unfold docs_of, replay. rewrite fold_left_app, docs_other, replay_docs, El. apply fold_of_list. }
    assert (Hlr : lex_run pipeline (lex_hist (replay T l)) = slx (zt_sys st)).
    { rewrite lex_replay. unfold lex_run. rewrite <- lex_texts_steps, lex_texts_steps, map_app, fold_left_app, <- !lex_texts_steps.
      rewrite Hlx. unfold lex_run. rewrite <- lex_texts_steps. apply known_texts.
      - rewrite lex_texts_steps. change (bij (lex_run pipeline (map LText T))). rewrite <- Hlx. apply Hi.
      - intros t w Ht' Hw. rewrite lex_texts_steps. change (exists i, get (lwids (lex_run pipeline (map LText T))) w = Some i). rewrite <- Hlx.
        apply in_map_iff in Ht' as ([d t'] & E & Hp). cbn [snd] in E. subst t'.
        assert (Hin : In (d, words t) (elts (docs st))).
        { rewrite <- El. apply in_map_iff. exists (d, t). auto. }
        apply get_In in Hin. destruct Hi as (_ & K & _). exact (K d _ Hin w Hw). }
    assert (Hh : history_ok pipeline (replay T l)).
    { split; [rewrite lex_replay; apply no_drift_ok, no_drift_texts|]. rewrite Hlr, Hlx. intros i Hin. apply keys_In in Hin as [w Hw].
      exact (dense_small pipeline TT Hf T HT i w Hw). }
    assert (Hsm : texts_small pipeline (replay T l)).
    { intros d t Hin. apply in_app_or in Hin as [Hin|Hin].
      - apply in_map_iff in Hin as (lo & E & _). discriminate.
      - apply in_map_iff in Hin as ([d' t'] & E & Hp). cbn in E. injection E as -> ->.
        apply (Hs d). apply get_In. rewrite <- El. apply in_map_iff. exists (d, t). auto. }
    assert (Hn : no_clear (replay T l)).
    { intros Hin. apply in_app_or in Hin as [Hin|Hin]; apply in_map_iff in Hin as (x & E & _); discriminate. }
    exists (replay T l). split; [exact Hh|]. split; [exact Hsm|]. split; [exact Hn|]. split; [exact Hd|].
    destruct (okapi_state_ok pipeline _ Hh) as (_ & L1 & I1 & _). rewrite Hd in I1. rewrite Hlr in L1. split; [exact L1|]. split.
    - apply (determined f32Z okapi_fr okapi_keys _ _ (docs st)); [exact I1|exact Hi|exact L1|].
      intros d ws w x Ed Hw. exact (weight_small _ _ _ _ (Hs d ws Ed) Hw).
    - intros G0. rewrite (okapi_total_no_clear pipeline _ Hh Hsm Hn), Hd. symmetry. apply Ht, G0.
  Qed.
  (** without [clear] there is only one generation *)
  Lemma gen_commit vs i j ops st : Forall (fun v : ztext Z => zt_gen v = 0) vs -> clears_t ops = false -> zo_commit pipeline vs i j ops = Some st -> zt_gen st = 0.
  Proof.
    intros Hv Hc. pose proof (proj1 (Forall_forall _ _) Hv) as H. unfold zo_commit, zt_commit. destruct vs as [|cur vs]; [discriminate|].
    destruct (nth_error (cur :: vs) i) as [snap|] eqn:Ei; [|discriminate]. destruct (nth_error (cur :: vs) (Nat.min i j)) as [seen|]; [|discriminate].
    unfold zt_exec. destruct (siter _ _ _) as [own [[]|e]]; [|discriminate]. unfold zt_merge. cbn [zt_begin zt_gen].
    destruct (lex3 _ _ _ _); [|discriminate]. pose proof (H cur (or_introl eq_refl)) as G1. pose proof (H snap (nth_error_In _ _ Ei)) as G2.
    pose proof (proj2 (proj2 (count_clears_0 ops)) Hc) as G3. rewrite G1, G2, G3. cbn [Z.add Z.eqb]. destruct (ix3 _ _ _ _ _); [|discriminate].
    intros [= <-]. reflexivity.
  Qed.
  Lemma zo_run_snoc sch t : run (sch ++ [t]) = zt_step Z.eqb pipeline (okapi_index_doc pipeline) okapi_unindex_doc (run sch) t.
  Proof. unfold zo_run, zt_run. apply fold_left_app. Qed.
  Lemma all_ops_snoc sch t : all_ops (sch ++ [t]) = all_ops sch ++ snd t.
  Proof. unfold all_ops. rewrite map_app, concat_app. cbn. rewrite app_nil_r. reflexivity. Qed.
  Lemma clears_app a b : clears_t (a ++ b) = clears_t a || clears_t b.
  Proof. apply existsb_app. Qed.
  Lemma gen_run sch : clears_t (all_ops sch) = false -> Forall (fun v => zt_gen v = 0) (run sch).
  Proof.
    induction sch as [|t sch IH] using rev_ind; intros H; [repeat constructor|]. rewrite all_ops_snoc, clears_app in H. apply orb_false_iff in H as [H1 H2].
    rewrite zo_run_snoc. unfold zt_step. destruct (zt_commit _ _ _ _ _ _ _ _) as [st|] eqn:E; [|auto]. constructor; [|auto].
    exact (gen_commit _ _ _ _ _ (IH H1) H2 E).
  Qed.
  Lemma zo_consistent sch st : schedule_ok pipeline sch -> In st (run sch) ->
    exists h, history_ok pipeline h /\ texts_small pipeline h /\ no_clear h /\ docs_of pipeline h = docs st /\
      same_docs_view (okapi_state pipeline h) (zt_sys st) /\
      (clears_t (all_ops sch) = false -> okapi_same pipeline (okapi_state pipeline h) (zt_sys st)).
  Proof.
    intros H Hin. pose proof (zo_versions sch []) as Hv. rewrite app_nil_r in Hv. destruct (Hv H) as (_ & Hf & _).
    pose proof (proj1 (Forall_forall _ _) Hf st Hin) as Hst.
    destruct (as_history _ st (schedule_few _ H) Hst) as (h & H1 & H2 & H3 & H4 & H5 & H6 & H7).
    exists h. split; [exact H1|]. split; [exact H2|]. split; [exact H3|]. split; [exact H4|]. split; [exact (like_view _ _ H5 H6)|].
    intros Hc. apply like_same; [exact H5|exact H6|]. apply H7. exact (proj1 (Forall_forall _ _) (gen_run sch Hc) st Hin).
  Qed.

  Lemma exec_total TT cur ops : Zlen (distinct (flat_map (text_words pipeline) TT)) < 2 ^ 28 ->
    vinv f32Z okapi_fr short (fun ix => ix) pipeline total_words TT cur -> good_ops short pipeline TT ops ->
    exists s', exec ops (zt_sys cur) = (s', Ok tt) /\ okinv s' (fold_left (docs_step pipeline) ops (docs cur)) /\
      (clears_t ops = false -> totaldoclen (six s') - totaldoclen (six (zt_sys cur)) = total_words (fold_left (docs_step pipeline) ops (docs cur)) - total_words (docs cur)) /\
      slx s' = lex_texts pipeline (op_texts ops) (slx (zt_sys cur)).
  Proof.
    intros Hf (Hi & Hs & _ & _ & _ & (T & HT & Hlx)) (G1 & G2 & G3).
    destruct (okapi_exec_ok ops (zt_sys cur) (docs cur) Hi Hs G1 G2) as (s' & E & I' & Ht).
    { rewrite Hlx, (lex_hist_texts ops G2). unfold lex_run. rewrite <- fold_left_app, <- map_app. apply (dense_small pipeline TT Hf).
      intros t Ht. apply in_app_or in Ht as [Ht|Ht]; auto. }
    exists s'. split; [exact E|]. split; [exact I'|]. split; [exact Ht|]. rewrite (okapi_follows ops _ _ _ E), (lex_hist_texts ops G2). symmetry. apply lex_texts_steps.
  Qed.
  Lemma schedule_prefix a b : schedule_ok pipeline (a ++ b) -> schedule_ok pipeline a.
  Proof.
    unfold schedule_ok, all_ops. rewrite map_app, concat_app, lex_hist_app. intros (H1 & H2 & H3). split; [|split].
    - intros n Hn. apply (H1 n), in_or_app. auto.
    - apply (small_app_l pipeline _ _ H2).
    - eapply Z.le_lt_trans; [|exact H3]. unfold Zlen. apply inj_le. pose proof (distinct_spec (words_of pipeline (lex_hist (concat (map snd a))))) as [N1 I1].
      apply NoDup_incl_length; [exact N1|]. intros w Hw. apply distinct_spec. apply I1 in Hw. unfold words_of in *. rewrite flat_map_app. apply in_or_app. auto.
  Qed.

  (** *** Transactions that do not get in each other's way *)
  Lemma zo_alone sch j ops cur : schedule_ok pipeline (sch ++ [(0%nat, j, ops)]) -> hd_error (run sch) = Some cur ->
    zo_commit pipeline (run sch) 0 j ops = zt_exec pipeline (okapi_index_doc pipeline) okapi_unindex_doc ops cur /\
    zo_commit pipeline (run sch) 0 j ops <> None.
  Proof.
    intros H Hc. assert (Ho : good (sch ++ [(0%nat, j, ops)]) ops) by (apply (schedule_good _ (0%nat, j, ops) H), in_or_app; right; left; reflexivity).
    pose proof (zo_versions _ _ H) as Hv. assert (E : zo_commit pipeline (run sch) 0 j ops = zt_exec pipeline (okapi_index_doc pipeline) okapi_unindex_doc ops cur).
    { exact (commit_alone Z.eqb Z.eqb_eq f32Z okapi_fr short (fun ix => ix) pipeline (okapi_index_doc pipeline) okapi_unindex_doc total_words okapi_follows okapi_exec_ok _ _ j ops cur Hv Ho Hc). }
    split; [exact E|]. rewrite E. destruct Hv as (_ & Hf & _).
    assert (Hin : In cur (run sch)) by (destruct (run sch); [discriminate|injection Hc as ->; left; reflexivity]).
    destruct (exec_total _ cur ops (schedule_few _ H) (proj1 (Forall_forall _ _) Hf cur Hin) Ho) as (s' & Ex & _).
    unfold zt_exec. rewrite Ex. discriminate.
  Qed.
  Lemma zo_one_client sch : (forall t, In t sch -> fst (fst t) = 0%nat) -> schedule_ok pipeline sch ->
    exists cur, hd_error (run sch) = Some cur /\ zt_sys cur = okapi_state pipeline (all_ops sch) /\ length (run sch) = S (length sch).
  Proof.
    intros H0 Hok. assert (G : forall pre post, sch = pre ++ post -> exists cur, hd_error (run pre) = Some cur /\
      exec (all_ops pre) (mkSys lex_new ix_new) = (zt_sys cur, Ok tt) /\ length (run pre) = S (length pre)).
    { induction pre as [|t pre IH] using rev_ind; intros post E.
      - exists zt_new. repeat split.
      - rewrite <- app_assoc in E. destruct (IH _ E) as (cur & Hc & Hr & Hl). assert (Ht : In t sch) by (rewrite E; apply in_or_app; right; left; reflexivity).
        destruct t as [[i j] ops]. specialize (H0 _ Ht). cbn [fst] in H0. subst i. rewrite zo_run_snoc, all_ops_snoc. unfold zt_step. cbn [fst snd].
        change (zt_commit Z.eqb pipeline (okapi_index_doc pipeline) okapi_unindex_doc (run pre) 0 j ops) with (zo_commit pipeline (run pre) 0 j ops).
        destruct (zo_alone pre j ops cur) as [A1 A2]; [|exact Hc|].
        { apply (schedule_prefix _ post). rewrite <- app_assoc, <- E. exact Hok. }
        destruct (zo_commit pipeline (run pre) 0 j ops) as [st|] eqn:Ec; [|destruct (A2 eq_refl)]. clear A2. exists st. split; [reflexivity|].
        unfold zt_exec in A1. destruct (exec ops (zt_sys cur)) as [own [[]|e]] eqn:Ex; [|discriminate]. injection A1 as ->. cbn [zt_sys]. split.
        + rewrite siter_two, Hr. exact Ex.
        + cbn [length]. rewrite Hl, app_length. cbn [length]. lia. }
    destruct (G sch []) as (cur & H1 & H2 & H3); [rewrite app_nil_r; reflexivity|]. exists cur. split; [exact H1|]. split; [|exact H3].
    unfold okapi_state, okapi_run, run_ops. rewrite H2. reflexivity.
  Qed.

  (** nobody else changed the documents concerned *)
  Lemma zo_serial sch i j ops st cur snap : schedule_ok pipeline (sch ++ [(i, j, ops)]) -> zo_commit pipeline (run sch) i j ops = Some st ->
    hd_error (run sch) = Some cur -> nth_error (run sch) i = Some snap -> cleared_since_t snap cur = false -> clears_t ops = false ->
    (forall d, In d (docs_of_t ops) -> get (docs cur) d = get (docs snap) d) ->
    exists own, zt_exec pipeline (okapi_index_doc pipeline) okapi_unindex_doc ops cur = Some own /\ okapi_same pipeline (zt_sys st) (zt_sys own).
  Proof.
    intros H E Hc Hs C1 C2 Hd. assert (Ho : good (sch ++ [(i, j, ops)]) ops) by (apply (schedule_good _ (i, j, ops) H), in_or_app; right; left; reflexivity).
    pose proof (zo_versions _ _ H) as Hv. destruct (zo_effect _ _ _ _ _ _ (schedule_few _ H) Hv Ho E) as (cur' & snap' & H1 & H2 & (_ & H3 & H4 & H5) & Hst).
    rewrite Hc in H1. injection H1 as <-. rewrite Hs in H2. injection H2 as <-. destruct Hv as (_ & Hf & _).
    assert (Hin : In cur (run sch)) by (destruct (run sch); [discriminate|injection Hc as ->; left; reflexivity]).
    destruct (exec_total _ cur ops (schedule_few _ H) (proj1 (Forall_forall _ _) Hf cur Hin) Ho) as (s' & Ex & I' & T' & L').
    exists (mkZT s' (zt_gen cur + count_clears ops)). split; [unfold zt_exec; rewrite Ex; reflexivity|]. cbn [zt_sys].
    assert (Hdocs : docs st = fold_left (docs_step pipeline) ops (docs cur)).
    { apply smap_ext. intros d. unfold committed in H4. rewrite C1, C2 in H4. destruct (H4 d) as [P1 P2].
      destruct (in_dec Z.eq_dec d (docs_of_t ops)) as [Hin'|Hout].
      - rewrite (docs_local pipeline ops (docs cur) (docs snap) d (Hd d Hin')).
        destruct (option_eq (get (fold_left (docs_step pipeline) ops (docs snap)) d) (get (docs snap) d)) as [E1|E1].
        + rewrite (P1 E1), E1. apply Hd, Hin'.
        + apply (P2 E1).
      - rewrite P1 by (apply docs_untouched; assumption). symmetry. apply docs_untouched; assumption. }
    destruct Hst as (Ist & Sst & _). rewrite <- Hdocs in I'.
    assert (Hl : slx (zt_sys st) = slx s') by (rewrite H3, L'; reflexivity).
    apply like_same; [exact Hl| |].
    - apply (determined f32Z okapi_fr okapi_keys _ _ (docs st)); [exact Ist|exact I'|exact Hl|].
      intros d ws w x Ed Hw. exact (weight_small _ _ _ _ (Sst d ws Ed) Hw).
    - specialize (H5 C2). specialize (T' C2).
      assert (Hm : total_words (docs st) = total_words (docs cur) + total_words (fold_left (docs_step pipeline) ops (docs snap)) - total_words (docs snap)).
      { apply total_merged. intros d. unfold committed in H4. rewrite C1, C2 in H4. destruct (H4 d) as [P1 P2].
        destruct (option_eq (get (fold_left (docs_step pipeline) ops (docs snap)) d) (get (docs snap) d)) as [E1|E1].
        - destruct (option_eq (get (docs cur) d) (get (docs snap) d)) as [E2|E2].
          + left. split; [exact E2|]. rewrite (P1 E1), E2, E1. reflexivity.
          + right. split; [exact E2|]. split; [exact E1|apply (P1 E1)].
        - left. apply (P2 E1). }
      rewrite <- Hdocs in T'. lia.
  Qed.
End Okapi.
