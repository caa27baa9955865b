(** * Lemmas: transactions on a cosine index that commit *)
From Verif Require Import L_widcode L_lexicon L_setops L_baseindex L_textsys L_okapi L_cosine L_search L_cossearch L_textapi L_costext
  L_zodb L_zlexicon L_zbase L_ztext L_zokapi L_zframe L_zcround L_zcos S_zcos S_text Ord.

Section CosCommits.
  Context {F : Type} {AF : Arith F} {SF : SafeArith F} {EF : SoundEq F}.
  Variable same : F -> F -> bool.
  Hypothesis same_eq : eq_test same.
  Variable pipeline : list elem.
  Local Notation words t := (text_words pipeline t).
  Local Notation exec := (siter (op_step pipeline (cos_index_doc (F := F) pipeline) base_unindex_doc)).
  Local Notation cosinv s D := (sysinv (fun v : F => v) (fr_round f32 cos_fr) (mkSys (slx s) (rounded f32 (six s))) D).
  Lemma cwords_at (s : sys F) D d ws : cosinv s D -> get D d = Some ws -> get_words (six s) d = Ok (ids (slx s) ws).
  Proof. exact (words_at _ _ (mkSys (slx s) (rounded f32 (six s))) D d ws). Qed.
  Lemma cpresent_at (s : sys F) D d (ws : list str) : cosinv s D -> get D d = Some ws -> has_doc (six s) d = true.
  Proof. exact (present_at _ _ (mkSys (slx s) (rounded f32 (six s))) D d ws). Qed.
  Lemma cabsent_at (s : sys F) D d : cosinv s D -> get D d = None -> has_doc (six s) d = false.
  Proof. exact (absent_at _ _ (mkSys (slx s) (rounded f32 (six s))) D d). Qed.
  Local Notation other_words := L_zframe.other_words.

  Section Calls.
  (** the lexicon in the end, and the number of a word *)
  Variable lf : lex.
  Variable k : Z.
  Lemma frame_op o s D s' : cosinv s D -> op_step pipeline (cos_index_doc pipeline) base_unindex_doc o s = (s', Ok tt) ->
    grows (slx s) lf -> grows (slx s') lf -> (o <> TClear) ->
    (forall d ws, In d (docs_of_t [o]) -> get D d = Some ws -> other_words lf k ws) -> (forall d t, o = TIndex d t -> other_words lf k (words t)) ->
    entry_kept k s s'.
  Proof using SF EF.
    intros Hi E G0 G1 Nc HD Ho. pose proof Hi as (Hb & Hk & _).
    assert (Hold : forall d ws, In d (docs_of_t [o]) -> get D d = Some ws -> ~ In k (ids (slx s) ws)).
    { intros d ws Hd Hg. apply (other_ids lf k); [exact Hb|exact G0|exact (Hk _ _ Hg)|exact (HD _ _ Hd Hg)]. }
    assert (Fol := cos_follows pipeline [o] s s' tt). cbn [siter] in Fol. unfold sbind in Fol. rewrite E in Fol. specialize (Fol eq_refl).
    destruct o as [d t|d| |[t|n]]; cbn [op_step] in E; [| |congruence| |].
    - change (slx s' = lex_step pipeline (slx s) (LText t)) in Fol.
      assert (Hnew : ~ In k (ids (lex_step pipeline (slx s) (LText t)) (words t))).
      { destruct (source_spec pipeline t (slx s) Hb) as (_ & Hb' & _ & Hk'). rewrite <- Fol in *. apply (other_ids lf k); [exact Hb'|exact G1|exact Hk'|exact (Ho d t eq_refl)]. }
      apply sbind_inv in E as (s1 & a & E & E'). injection E' as <-. unfold cos_index_doc, cos_index_doc_with in E.
      destruct (get D d) as [old|] eqn:Ed.
      + unfold base_index_doc_with in E. rewrite (cpresent_at _ _ _ _ Hi Ed) in E.
        refine (frame_reindex k f32 pipeline feqb cos_freqs cos_fr cos_freqs_fr cos_keys s d t _ a old Hb (cwords_at _ _ _ _ Hi Ed) E (Hold _ _ (or_introl eq_refl) Ed) Hnew).
      + refine (frame_index_new k f32 pipeline cos_freqs cos_fr cos_freqs_fr cos_keys s _ d t _ a Hb (cabsent_at _ _ _ Hi Ed) E Hnew).
    - destruct (get D d) as [old|] eqn:Ed.
      + refine (frame_unindex k s d s' tt old (cpresent_at _ _ _ _ Hi Ed) (cwords_at _ _ _ _ Hi Ed) E (Hold _ _ (or_introl eq_refl) Ed)).
      + unfold base_unindex_doc in E. rewrite (cabsent_at _ _ _ Hi Ed) in E. injection E as <-. reflexivity.
    - injection E as <-. reflexivity.
    - injection E as <-. reflexivity.
  Qed.
  Lemma frame_ops ops : forall s D s', cosinv s D -> docs_sound any_text D -> sound_ops any_text pipeline ops -> no_drift (lex_hist ops) -> clears_t ops = false ->
    exec ops s = (s', Ok tt) -> grows (slx s') lf -> small lf ->
    (forall d ws, In d (docs_of_t ops) -> get D d = Some ws -> other_words lf k ws) -> (forall d t, In (TIndex d t) ops -> other_words lf k (words t)) ->
    entry_kept k s s'.
  Proof.
    induction ops as [|o ops IH]; intros s D s' Hi HD Ho Hn Hc E Gf Sf HW HT; [injection E as <-; reflexivity|].
    unfold clears_t in Hc. cbn [existsb] in Hc. apply orb_false_iff in Hc as [Hc1 Hc].
    pose proof (cos_follows pipeline _ _ _ _ E) as F0. rewrite (lex_hist_texts _ Hn), <- lex_texts_steps in F0.
    cbn [siter] in E. apply sbind_inv in E as (s1 & [] & E1 & E2).
    assert (Hn1 : no_drift (lex_hist [o]) /\ no_drift (lex_hist ops)).
    { change (o :: ops) with ([o] ++ ops) in Hn. rewrite lex_hist_app in Hn. split; intros n Hin; apply (Hn n), in_or_app; auto. }
    assert (E1' : exec [o] s = (s1, Ok tt)) by (cbn [siter]; unfold sbind; rewrite E1; reflexivity).
    pose proof (cos_follows pipeline _ _ _ _ E1') as F1. pose proof (cos_follows pipeline _ _ _ _ E2) as F2.
    rewrite (lex_hist_texts _ (proj1 Hn1)), <- lex_texts_steps in F1. rewrite (lex_hist_texts _ (proj2 Hn1)), <- lex_texts_steps in F2.
    destruct (texts_grow pipeline (op_texts [o]) (slx s) (proj1 Hi)) as [B1 g1]. rewrite <- F1 in B1, g1.
    destruct (texts_grow pipeline (op_texts ops) (slx s1) B1) as [B2 g2]. rewrite <- F2 in B2, g2.
    assert (g3 : grows (slx s1) lf) by (eapply grows_trans; eassumption). assert (g4 : grows (slx s) lf) by (eapply grows_trans; eassumption).
    destruct (cos_exec_ok pipeline [o] s D Hi HD) as (s1' & E1'' & I1 & _).
    { intros d t [->|[]]. apply (Ho d t). left. reflexivity. }
    { apply Hn1. }
    { rewrite (lex_hist_texts _ (proj1 Hn1)), <- lex_texts_steps, <- F1. exact (small_grows _ _ g3 Sf). }
    rewrite E1' in E1''. injection E1'' as <-. cbn [fold_left] in I1. apply (kept_trans k s s1).
    - apply (frame_op o s D s1 Hi E1 g4 g3).
      + intros ->. discriminate.
      + intros d ws Hd. apply HW. change (o :: ops) with ([o] ++ ops). unfold docs_of_t in *. rewrite map_app, concat_app. apply in_or_app. auto.
      + intros d t ->. apply (HT d t). left. reflexivity.
    - apply (IH s1 (docs_step pipeline D o) s' I1); [| |apply Hn1|exact Hc|exact E2|exact Gf|exact Sf| |].
      + apply (docs_sounds any_text pipeline [o]); [exact HD|]. intros d t [->|[]]. apply (Ho d t). left. reflexivity.
      + intros d t Hin. apply (Ho d t). right. exact Hin.
      + intros d ws Hd Hg. assert (Hd' : In d (docs_of_t (o :: ops))).
        { change (o :: ops) with ([o] ++ ops). unfold docs_of_t in *. rewrite map_app, concat_app. apply in_or_app. auto. }
        destruct o as [d' t|d'| |lo]; cbn [docs_step] in Hg; [| |discriminate|].
        * rewrite get_put in Hg. destruct (eqb d d'); [injection Hg as <-; apply (HT d' t); left; reflexivity|exact (HW _ _ Hd' Hg)].
        * rewrite get_del in Hg. destruct (eqb d d'); [discriminate|exact (HW _ _ Hd' Hg)].
        * exact (HW _ _ Hd' Hg).
      + intros d t Hin. apply (HT d t). right. exact Hin.
  Qed.
  End Calls.

  Local Notation run := (zc_run same pipeline).
  Local Notation commit := (zc_commit same pipeline).
  Local Notation sok := (cos_schedule_ok pipeline).
  Local Notation docs st := (documents (zt_sys st)).
  Local Notation lx_of st := (slx (zt_sys st)).
  Local Notation ix_of st := (six (zt_sys st)).
  Local Notation versions TT := (vsinv (fun v : F => v) (fr_round f32 cos_fr) any_text (rounded f32) pipeline no_total TT).
  Local Notation good TT := (good_ops any_text pipeline TT).
  Local Notation begin seen snap := (zt_begin seen snap).

  Lemma own_facts TT vs i j ops cur snap seen lx : Zlen (distinct (flat_map (text_words pipeline) TT)) < 2 ^ 28 ->
    versions TT vs -> good TT ops -> hd_error vs = Some cur -> nth_error vs i = Some snap -> nth_error vs (Nat.min i j) = Some seen ->
    lex_commit pipeline (lxs vs) i j (op_texts ops) = Some lx ->
    exists own, exec ops (zt_sys (begin seen snap)) = (own, Ok tt) /\ cosinv (zt_sys (begin seen snap)) (docs snap) /\
      cosinv own (fold_left (docs_step pipeline) ops (docs snap)) /\ docs_sound any_text (docs snap) /\
      grows (slx own) lx /\ grows (lx_of cur) lx /\ grows (lx_of snap) lx /\ bij lx /\ small lx /\ cosinv (zt_sys cur) (docs cur) /\
      lex3 (lcount (lx_of seen)) (lx_of snap) (lx_of cur) (slx own) = Some lx /\
      commit vs i j ops = zt_merge same (lcount (lx_of seen)) snap cur (mkZT own (zt_gen snap + count_clears ops)).
  Proof.
    intros Hf (Hch & Hvs & Hg & _) (Gs & Gn & Gi). destruct vs as [|c vs]; [discriminate|]. intros [= ->] Ei Ej Ec.
    pose proof (proj1 (Forall_forall _ _) Hvs) as Hv. pose proof (Hv _ (nth_error_In _ _ Ei)) as Vs. pose proof (Hv cur (or_introl eq_refl)) as Vc.
    assert (Li : nth_error (lxs (cur :: vs)) i = Some (lx_of snap)) by (unfold lxs; rewrite nth_error_map, Ei; reflexivity).
    assert (Lj : nth_error (lxs (cur :: vs)) (Nat.min i j) = Some (lx_of seen)) by (unfold lxs; rewrite nth_error_map, Ej; reflexivity).
    destruct (commit_serial pipeline _ _ _ _ _ Hch Ec) as (lc & ls & le & H1 & H2 & H3 & Hlx & Dlx & Rlx & _).
    rewrite Li in H2. rewrite Lj in H3. cbn in H1. injection H1 as <-. injection H2 as <-. injection H3 as <-.
    destruct (commit_own pipeline _ _ _ _ _ _ _ Hch Ec Li Lj) as (Bo & Go & Gsn & Bb).
    destruct Vc as (Ic & Sc & Nc & Tc & Xc & (T & HT & HTl)). destruct Vs as (Is & Ss & Ns & Tsn & Xs & _).
    assert (Hlx' : lx = lex_run pipeline (map LText (T ++ op_texts ops))).
    { rewrite Hlx, HTl. unfold lex_run. rewrite map_app, fold_left_app. apply lex_texts_steps. }
    assert (HT' : incl (T ++ op_texts ops) TT) by (intros t Ht; apply in_app_or in Ht as [Ht|Ht]; auto).
    assert (Slx : small lx) by (rewrite Hlx'; exact (dense_small pipeline TT Hf _ HT')).
    assert (Ib : cosinv (zt_sys (begin seen snap)) (docs snap)).
    { apply (sysinv_lex (fun v => v) (fr_round f32 cos_fr) (mkSys (lx_of snap) (rounded f32 (ix_of snap)))); [exact Is|exact Bb|]. split; auto. }
    destruct (cos_exec_ok pipeline ops (zt_sys (begin seen snap)) (docs snap) Ib Ss Gs Gn) as (own & Ex & Io & _).
    { rewrite (lex_hist_texts ops Gn), <- lex_texts_steps. refine (small_grows _ _ Go Slx). }
    pose proof (cos_follows pipeline ops _ _ _ Ex) as Lo. rewrite (lex_hist_texts ops Gn), <- lex_texts_steps in Lo.
    exists own. split; [exact Ex|]. split; [exact Ib|]. split; [exact Io|]. split; [exact Ss|]. split; [rewrite Lo; exact Go|].
    split; [apply Rlx|]. split; [exact Gsn|]. split; [apply Dlx|]. split; [exact Slx|]. split; [exact Ic|]. split.
    - change (lxs (cur :: vs)) with (lx_of cur :: lxs vs) in *. unfold lex_commit in Ec. rewrite Li, Lj in Ec. rewrite Lo. exact Ec.
    - unfold zc_commit, zt_commit. rewrite Ei, Ej. unfold zt_exec. rewrite Ex. reflexivity.
  Qed.

  (** a commit implies that the lexicon commits *)
  Lemma lex_part TT vs i j ops st : versions TT vs -> good TT ops -> commit vs i j ops = Some st ->
    exists cur snap seen, hd_error vs = Some cur /\ nth_error vs i = Some snap /\ nth_error vs (Nat.min i j) = Some seen /\
      lex_commit pipeline (lxs vs) i j (op_texts ops) = Some (lx_of st).
  Proof.
    intros _ (_ & Gn & _) E. unfold zc_commit, zt_commit in E. destruct vs as [|cur vs]; [discriminate|].
    destruct (nth_error (cur :: vs) i) as [snap|] eqn:Ei; [|discriminate].
    destruct (nth_error (cur :: vs) (Nat.min i j)) as [seen|] eqn:Ej; [|discriminate]. exists cur, snap, seen.
    split; [reflexivity|]. split; [reflexivity|]. split; [reflexivity|].
    assert (Li : nth_error (lxs (cur :: vs)) i = Some (lx_of snap)) by (unfold lxs; rewrite nth_error_map, Ei; reflexivity).
    assert (Lj : nth_error (lxs (cur :: vs)) (Nat.min i j) = Some (lx_of seen)) by (unfold lxs; rewrite nth_error_map, Ej; reflexivity).
    unfold zt_exec in E. destruct (exec ops _) as [own [[]|e]] eqn:Ex; [|discriminate].
    pose proof (cos_follows pipeline ops _ _ _ Ex) as Lo. rewrite (lex_hist_texts ops Gn), <- lex_texts_steps in Lo.
    unfold zt_merge in E. cbn [zt_sys] in E. destruct (lex3 _ _ _ (slx own)) as [lx|] eqn:El; [|discriminate].
    assert (Hst : lx_of st = lx).
    { destruct (_ =? _); [destruct (_ =? _)|destruct (_ =? _)]; try discriminate; [destruct (ix3 _ _ _ _ _); [|discriminate]| |]; injection E as <-; reflexivity. }
    change (lxs (cur :: vs)) with (lx_of cur :: lxs vs) in *. unfold lex_commit. rewrite Li, Lj, Hst, <- El, Lo. reflexivity.
  Qed.

  Lemma run_given sch : sok sch -> Forall (fun st => given pipeline (all_ops sch) (docs st)) (run sch).
  Proof.
    induction sch as [|t sch IH] using rev_ind; intros H.
    - constructor; [|constructor]. intros d ws E. change (get (empty : smap Z (list str)) d = Some ws) in E. rewrite get_empty in E. discriminate.
    - specialize (IH (cschedule_prefix pipeline _ _ H)). assert (IH' : Forall (fun st => given pipeline (all_ops (sch ++ [t])) (docs st)) (run sch)).
      { eapply Forall_impl; [|exact IH]. intros st. apply given_more. rewrite all_ops_snoc. intros x Hx. apply in_or_app. auto. }
      rewrite zc_run_snoc. unfold zt_step. destruct t as [[i j] ops]. cbn [fst snd].
      destruct (zt_commit _ _ _ _ _ _ _ _) as [st|] eqn:E; [|exact IH']. constructor; [|exact IH'].
      destruct (zc_commit_ok same same_eq pipeline sch i j ops st H E) as (cur & snap & Hc & Hs & Hco & _).
      pose proof (proj1 (Forall_forall _ _) IH') as G.
      assert (Gc : given pipeline (all_ops (sch ++ [(i, j, ops)])) (docs cur)) by (apply G; destruct (run sch); [discriminate|injection Hc as ->; left; reflexivity]).
      assert (Go : given pipeline (all_ops (sch ++ [(i, j, ops)])) (fold_left (docs_step pipeline) ops (docs snap))).
      { apply given_fold; [apply G, (nth_error_In _ _ Hs)|]. rewrite all_ops_snoc. intros x Hx. apply in_or_app. right. exact Hx. }
      unfold committed in Hco. destruct (cleared_since_t snap cur), (clears_t ops).
      + destruct Hco.
      + rewrite Hco. assumption.
      + rewrite Hco. assumption.
      + intros d ws Hd. destruct (Hco d) as [C1 C2].
        destruct (option_eq (get (fold_left (docs_step pipeline) ops (docs snap)) d) (get (docs snap) d)) as [Eq|Ne].
        * rewrite (C1 Eq) in Hd. exact (Gc _ _ Hd).
        * rewrite (proj2 (C2 Ne)) in Hd. exact (Go _ _ Hd).
  Qed.

  Lemma post3_none (o a b : option (posting F)) : post3 same o a b = None -> a <> o /\ b <> o.
  Proof.
    pose proof (opt_same_eq _ (post_same_eq same same_eq)) as He. unfold post3. intros E.
    split; intros ->; rewrite (proj2 (He _ _) eq_refl) in E; [discriminate|]. destruct (opt_same _ a o); discriminate.
  Qed.
  Lemma post3_keep (o a : option (posting F)) m : post3 same o a o = Some m -> m = a.
  Proof. intros E. apply (post3_merged same same_eq) in E as [[-> ->]|[(_ & _ & ->)|(_ & N & _)]]; [reflexivity|reflexivity|destruct (N eq_refl)]. Qed.

  (** a commit leaves the entries of words, and the documents, that it is not about *)
  Lemma commit_keeps sch i j ops rest st cur lf k : sok (sch ++ (i, j, ops) :: rest) -> commit (run sch) i j ops = Some st ->
    hd_error (run sch) = Some cur -> clears_t ops = false -> grows (lx_of st) lf -> small lf ->
    (forall d w, In d (docs_of_t ops) -> word_given pipeline (all_ops (sch ++ [(i, j, ops)])) d w -> get (lwids lf) w <> Some k) ->
    get (wordinfo (ix_of st)) k = get (wordinfo (ix_of cur)) k /\ zt_gen st = zt_gen cur /\ grows (lx_of cur) (lx_of st) /\
    forall d, ~ In d (docs_of_t ops) -> get (docs st) d = get (docs cur) d.
  Proof.
    intros H E Hc Hcl Gf Sf Hw. assert (H' : sok (sch ++ [(i, j, ops)])).
    { apply (cschedule_prefix pipeline _ rest). rewrite <- app_assoc. exact H. }
    assert (Ho : good (TTs (sch ++ [(i, j, ops)])) ops) by (apply (cschedule_good pipeline _ (i, j, ops) H'), in_or_app; right; left; reflexivity).
    pose proof (zc_versions same same_eq pipeline _ _ H') as Hv.
    destruct (lex_part _ _ _ _ _ _ Hv Ho E) as (c & snap & seen & Hc' & Hi & Hj & El). rewrite Hc in Hc'. injection Hc' as <-.
    destruct (own_facts _ _ _ _ _ _ _ _ _ (cschedule_few pipeline _ H') Hv Ho Hc Hi Hj El) as (own & Ex & Ib & Io & Ss & Go & Gc & Gs & Bl & Sl & Ic & L3 & Em).
    pose proof (proj1 (Forall_forall _ _) (run_given sch (cschedule_prefix pipeline _ _ H'))) as Hgiv.
    assert (Hinc : incl (all_ops sch) (all_ops (sch ++ [(i, j, ops)]))) by (rewrite all_ops_snoc; intros x Hx; apply in_or_app; auto).
    assert (Kept : entry_kept k (zt_sys (begin seen snap)) own).
    { apply (frame_ops lf k ops _ (docs snap) own Ib Ss (proj1 Ho) (proj1 (proj2 Ho)) Hcl Ex (grows_trans _ _ _ Go Gf) Sf).
      - intros d ws Hd Hg w Hws. apply (Hw d w Hd). destruct (Hgiv snap (nth_error_In _ _ Hi) d ws Hg) as (t & Ht & <-). exists t. auto.
      - intros d t Ht w Hws. apply (Hw d w).
        + unfold docs_of_t. apply in_concat. exists [d]. split; [|left; reflexivity]. apply in_map_iff. exists (TIndex d t). auto.
        + exists t. split; [|exact Hws]. rewrite all_ops_snoc. apply in_or_app. right. exact Ht. }
    unfold entry_kept in Kept. cbn [begin zt_begin zt_sys six] in Kept.
    destruct (zc_commit_ok same same_eq pipeline sch i j ops st H' E) as (c & sn & Hc' & Hi' & Hco & _). rewrite Hc in Hc'. injection Hc' as <-. rewrite Hi in Hi'. injection Hi' as <-.
    pose proof (proj2 (proj2 (count_clears_0 ops)) Hcl) as C0. rewrite Hcl in Hco.
    rewrite E in Em. symmetry in Em. unfold zt_merge in Em. cbn [zt_sys zt_gen] in Em. rewrite L3, C0, Z.add_0_r, Z.eqb_refl in Em.
    remember (lx_of st) as lx eqn:Elx. unfold cleared_since_t in Hco. destruct (zt_gen cur =? zt_gen snap) eqn:Eg; cbn [negb committed] in Hco.
    - destruct (ix3 _ _ _ _ _) as [ix|] eqn:E3; [|discriminate]. injection Em as <-. cbn [zt_sys zt_gen six slx]. split; [|split; [lia|split; [exact Gc|]]].
      + unfold ix3 in E3. destruct (map3 (fun _ => post3 same) _ _ _) as [wi|] eqn:Ewi; [|discriminate].
        destruct (map3 _ (docweight _) _ _); [|discriminate]. destruct (map3 _ (docwords _) _ _); [|discriminate]. injection E3 as <-. cbn [wordinfo].
        pose proof (map3_spec _ _ _ _ _ (fun _ => eq_refl) Ewi k) as H3. cbn beta in H3. rewrite Kept in H3. exact (post3_keep _ _ _ H3).
      + intros d Hd. apply Hco. apply docs_untouched; assumption.
    - injection Em as <-. cbn [zt_sys zt_gen six slx]. split; [reflexivity|]. split; [reflexivity|]. split; [exact Gc|]. intros d _.
      cbn [zt_sys] in Hco. rewrite Hco. reflexivity.
  Qed.
  Lemma since_keeps before since rest lf k snap : hd_error (run before) = Some snap -> small lf -> clears_t (all_ops since) = false ->
    sok (before ++ since ++ rest) -> forall cur, hd_error (run (before ++ since)) = Some cur -> grows (lx_of cur) lf ->
    (forall d w, In d (docs_of_t (all_ops since)) -> word_given pipeline (all_ops (before ++ since)) d w -> get (lwids lf) w <> Some k) ->
    get (wordinfo (ix_of cur)) k = get (wordinfo (ix_of snap)) k /\ zt_gen cur = zt_gen snap /\
    forall d, ~ In d (docs_of_t (all_ops since)) -> get (docs cur) d = get (docs snap) d.
  Proof.
    intros Hs Sf. revert rest. induction since as [|t since IH] using rev_ind; intros rest Hcl H cur Hc Gf Hw.
    - rewrite app_nil_r, Hs in Hc. injection Hc as <-. auto.
    - rewrite all_ops_snoc, clears_app in Hcl. apply orb_false_iff in Hcl as [Hcl1 Hcl2]. rewrite app_assoc, zc_run_snoc in Hc.
      rewrite <- app_assoc in H. cbn [app] in H. specialize (IH (t :: rest) Hcl1 H).
      assert (Hex : exists c, hd_error (run (before ++ since)) = Some c).
      { rewrite app_assoc in H. destruct (zc_versions same same_eq pipeline _ _ H) as (_ & _ & _ & Hne). destruct (run (before ++ since)); [congruence|eexists; reflexivity]. }
      destruct Hex as [c Hc0]. specialize (IH c Hc0). unfold zt_step in Hc. destruct t as [[i j] ops]. cbn [fst snd] in *.
      destruct (zt_commit _ _ _ _ _ _ _ _) as [st|] eqn:E.
      + injection Hc as ->. rewrite app_assoc in H.
        destruct (commit_keeps _ _ _ _ _ _ _ lf k H E Hc0 Hcl2 Gf Sf) as (K1 & K2 & K3 & K4).
        { intros d w Hd Hg. apply (Hw d w); [rewrite all_ops_snoc, docs_of_app; apply in_or_app; auto|]. rewrite app_assoc. exact Hg. }
        destruct IH as (I1 & I2 & I3); [eapply grows_trans; eassumption| |].
        { intros d w Hd (x & Hx & Hxw). apply (Hw d w); [rewrite all_ops_snoc, docs_of_app; apply in_or_app; auto|].
          exists x. split; [|exact Hxw]. rewrite app_assoc, all_ops_snoc. apply in_or_app. auto. }
        split; [congruence|]. split; [congruence|]. intros d Hd. rewrite all_ops_snoc, docs_of_app in Hd.
        rewrite K4, I3; [reflexivity| |]; intros Hin; apply Hd, in_or_app; auto.
      + rewrite Hc0 in Hc. injection Hc as ->. destruct IH as (I1 & I2 & I3); [exact Gf| |].
        { intros d w Hd (x & Hx & Hxw). apply (Hw d w); [rewrite all_ops_snoc, docs_of_app; apply in_or_app; auto|].
          exists x. split; [|exact Hxw]. rewrite app_assoc, all_ops_snoc. apply in_or_app. auto. }
        split; [exact I1|]. split; [exact I2|]. intros d Hd. rewrite all_ops_snoc, docs_of_app in Hd. apply I3. intros Hin. apply Hd, in_or_app; auto.
  Qed.

  (** ids and weights of a document that did not change *)
  Lemma same_docs (s s' : sys F) D D' lx d : cosinv s D -> cosinv s' D' -> grows (slx s) lx -> grows (slx s') lx -> get D' d = get D d ->
    get (docwords (six s')) d = get (docwords (six s)) d /\ get (docweight (six s')) d = get (docweight (six s)) d.
  Proof.
    intros (B & K & I) (B' & K' & I') G G' E. cbn [slx six] in *. assert (Hids : get (idmap (slx s') D') d = get (idmap (slx s) D) d).
    { rewrite !get_idmap, E. destruct (get D d) as [ws|] eqn:Ed; [|reflexivity]. cbn [option_map]. f_equal. apply map_ext_in. intros w Hw.
      rewrite <- (wid_grows _ _ w G' (K' d ws E w Hw)). apply (wid_grows _ _ w G (K d ws Ed w Hw)). }
    pose proof (iv_words _ _ _ _ I d) as X1. pose proof (iv_words _ _ _ _ I' d) as X2. pose proof (iv_weight _ _ _ _ I d) as X3. pose proof (iv_weight _ _ _ _ I' d) as X4.
    cbn [rounded docwords docweight] in X1, X2, X3, X4. rewrite X1, X2, X3, X4, Hids. auto.
  Qed.
  (** the lexicon does not object *)
  Lemma lexicon_ok TT vs i j ops cur snap seen : versions TT vs -> hd_error vs = Some cur -> nth_error vs i = Some snap -> nth_error vs (Nat.min i j) = Some seen ->
    lexicon_admits pipeline (op_texts ops) (lx_of snap) (lx_of seen) (lx_of cur) ->
    exists lx, lex_commit pipeline (lxs vs) i j (op_texts ops) = Some lx.
  Proof.
    intros (Hch & _) Hc Hi Hj Hl. apply (lex_commits pipeline (lxs vs) i j (op_texts ops) (lx_of cur) (lx_of snap) (lx_of seen) Hch); [| | |exact Hl].
    - destruct vs; [discriminate|]. injection Hc as ->. reflexivity.
    - unfold lxs. rewrite nth_error_map, Hi. reflexivity.
    - unfold lxs. rewrite nth_error_map, Hj. reflexivity.
  Qed.
  Lemma zc_commits before since i j ops cur snap seen : sok (before ++ since ++ [(i, j, ops)]) ->
    hd_error (run before) = Some snap -> hd_error (run (before ++ since)) = Some cur ->
    nth_error (run (before ++ since)) i = Some snap -> nth_error (run (before ++ since)) (Nat.min i j) = Some seen ->
    lexicon_admits pipeline (op_texts ops) (lx_of snap) (lx_of seen) (lx_of cur) ->
    clears_t (all_ops since) = false -> clears_t ops = false ->
    (forall d d', In d (docs_of_t ops) -> In d' (docs_of_t (all_ops since)) -> d <> d' /\
       forall w, word_given pipeline (all_ops (before ++ since ++ [(i, j, ops)])) d w -> word_given pipeline (all_ops (before ++ since ++ [(i, j, ops)])) d' w -> False) ->
    commit (run (before ++ since)) i j ops <> None.
  Proof.
    intros H Hs Hc Hi Hj Hl Hcl1 Hcl2 Hdis. pose proof H as H'. rewrite app_assoc in H'.
    assert (Ho : good (TTs ((before ++ since) ++ [(i, j, ops)])) ops) by (apply (cschedule_good pipeline _ (i, j, ops) H'), in_or_app; right; left; reflexivity).
    pose proof (zc_versions same same_eq pipeline _ _ H') as Hv. destruct (lexicon_ok _ _ _ _ _ _ _ _ Hv Hc Hi Hj Hl) as [lx El].
    destruct (own_facts _ _ _ _ _ _ _ _ _ (cschedule_few pipeline _ H') Hv Ho Hc Hi Hj El) as (own & Ex & Ib & Io & Ss & Go & Gc & Gs & Bl & Sl & Ic & L3 & Em).
    rewrite Em. unfold zt_merge. cbn [zt_sys zt_gen]. rewrite L3, (proj2 (proj2 (count_clears_0 ops)) Hcl2), Z.add_0_r, Z.eqb_refl.
    set (all := all_ops (before ++ since ++ [(i, j, ops)])) in *.
    assert (Hall : all = all_ops (before ++ since) ++ ops) by (unfold all; rewrite app_assoc, all_ops_snoc; reflexivity).
    assert (Hgw : forall d w, word_given pipeline (all_ops (before ++ since)) d w -> word_given pipeline all d w).
    { intros d w (t & Ht & Hw). exists t. split; [|exact Hw]. rewrite Hall. apply in_or_app. auto. }
    (* what the others did *)
    assert (Others : forall k, (forall d w, In d (docs_of_t (all_ops since)) -> word_given pipeline all d w -> get (lwids lx) w <> Some k) ->
      get (wordinfo (ix_of cur)) k = get (wordinfo (ix_of snap)) k /\ zt_gen cur = zt_gen snap /\
      forall d, ~ In d (docs_of_t (all_ops since)) -> get (docs cur) d = get (docs snap) d).
    { intros k Hk. apply (since_keeps before since [(i, j, ops)] lx k snap Hs Sl Hcl1 H cur Hc Gc). intros d w Hd Hg. apply (Hk d w Hd), Hgw, Hg. }
    assert (Hg0 : forall k, k <= 0 -> forall w, get (lwids lx) w <> Some k).
    { intros k Hk w Hw. apply Bl in Hw. apply (proj1 (proj2 Bl)) in Hw. lia. }
    destruct (Others 0) as (_ & Hgen & Hdocs); [intros d w _ _; apply Hg0; lia|]. rewrite Hgen, Z.eqb_refl. unfold ix3.
    assert (Is : cosinv (zt_sys snap) (docs snap)) by (apply (proj1 (Forall_forall _ _) (proj1 (proj2 Hv)) snap (nth_error_In _ _ Hi))).
    assert (Docs : forall d, (get (docwords (ix_of cur)) d = get (docwords (ix_of snap)) d /\ get (docweight (ix_of cur)) d = get (docweight (ix_of snap)) d) \/
      (get (docwords (six own)) d = get (docwords (ix_of snap)) d /\ get (docweight (six own)) d = get (docweight (ix_of snap)) d)).
    { intros d. destruct (in_dec Z.eq_dec d (docs_of_t ops)) as [Hd|Hd].
      - left. apply (same_docs (zt_sys snap) (zt_sys cur) (docs snap) (docs cur) lx d Is Ic Gs Gc). apply Hdocs. intros Hd'. destruct (Hdis d d Hd Hd') as [N _]. apply N. reflexivity.
      - right. apply (same_docs (zt_sys snap) own (docs snap) _ lx d Is Io Gs Go). apply docs_untouched; assumption. }
    edestruct (map3_total (fun _ : Z => post3 same)) as [wi ->].
    { intros k E. apply post3_none in E as [N1 N2].
      destruct (existsb (fun w => match get (lwids lx) w with Some n => n =? k | None => false end) (own_words pipeline ops all)) eqn:Ew.
      - apply existsb_exists in Ew as (w & Hw & Ew). destruct (get (lwids lx) w) as [n|] eqn:En; [|discriminate]. apply Z.eqb_eq in Ew as ->.
        apply own_words_spec in Hw as (d & Hd & Hg). apply N1. apply Others. intros d' w' Hd' Hg' E. apply Bl in E. apply Bl in En. rewrite En in E. injection E as <-.
        exact (proj2 (Hdis d d' Hd Hd') w Hg Hg').
      - apply N2. change (ix_of snap) with (ix_of (begin seen snap)).
        assert (Hno : forall d w, In d (docs_of_t ops) -> word_given pipeline all d w -> get (lwids lx) w <> Some k).
        { intros d w Hd Hg E. assert (X : existsb (fun w => match get (lwids lx) w with Some n => n =? k | None => false end) (own_words pipeline ops all) = true); [|congruence].
          apply existsb_exists. exists w. split; [apply own_words_spec; eauto|]. rewrite E. apply Z.eqb_refl. }
        apply (frame_ops lx k ops _ (docs snap) own Ib Ss (proj1 Ho) (proj1 (proj2 Ho)) Hcl2 Ex Go Sl).
        + intros d ws Hd Hg w Hws. apply (Hno d w Hd).
          destruct (proj1 (Forall_forall _ _) (run_given _ (cschedule_prefix pipeline _ _ H')) snap (nth_error_In _ _ Hi) d ws Hg) as (t & Ht & <-). apply Hgw. exists t. auto.
        + intros d t Ht w Hws. apply (Hno d w).
          * unfold docs_of_t. apply in_concat. exists [d]. split; [|left; reflexivity]. apply in_map_iff. exists (TIndex d t). auto.
          * exists t. split; [|exact Hws]. rewrite Hall. apply in_or_app. right. exact Ht. }
    edestruct (map3_total (fun _ : Z => key3 same)) as [dw ->].
    { intros d E. apply key3_none in E as [N1 N2]; [|intros x y; apply same_eq]. destruct (Docs d) as [[_ E]|[_ E]]; auto. }
    edestruct (map3_total (fun _ : Z => key3 eqb)) as [ds ->]; [|discriminate].
    intros d E. apply key3_none in E as [N1 N2]; [|intros x y; apply eqb_eq]. destruct (Docs d) as [[E _]|[E _]]; auto.
  Qed.
  (** clearing on either side *)
  Lemma zc_clears sch i j ops cur snap seen : sok (sch ++ [(i, j, ops)]) ->
    hd_error (run sch) = Some cur -> nth_error (run sch) i = Some snap -> nth_error (run sch) (Nat.min i j) = Some seen ->
    cleared_since_t snap cur = true \/ clears_t ops = true ->
    (commit (run sch) i j ops <> None <->
     lexicon_admits pipeline (op_texts ops) (lx_of snap) (lx_of seen) (lx_of cur) /\ ~ (cleared_since_t snap cur = true /\ clears_t ops = true)).
  Proof.
    intros H Hc Hi Hj Hcl. assert (Ho : good (TTs (sch ++ [(i, j, ops)])) ops) by (apply (cschedule_good pipeline _ (i, j, ops) H), in_or_app; right; left; reflexivity).
    pose proof (zc_versions same same_eq pipeline _ _ H) as Hv.
    assert (Hch := proj1 Hv). pose proof (count_clears_0 ops) as [Cn C0].
    assert (Ccl : count_clears ops <> 0 <-> clears_t ops = true) by (destruct (clears_t ops); [split; [reflexivity|intros _ E; apply C0 in E; discriminate]|split; [intros N; destruct N; apply C0; reflexivity|discriminate]]).
    split.
    - intros E. destruct (commit (run sch) i j ops) as [st|] eqn:Ec; [clear E|congruence].
      split; [|intros [E1 E2]; destruct (zc_commit_ok same same_eq pipeline sch i j ops st H Ec) as (c & sn & Hc' & Hi' & Hco & _); rewrite Hc in Hc'; injection Hc' as <-; rewrite Hi in Hi'; injection Hi' as <-; rewrite E1, E2 in Hco; exact Hco].
      destruct (lex_part _ _ _ _ _ _ Hv Ho Ec) as (c & sn & se & Hc' & Hi' & Hj' & El).
      intros Hnw. apply (lex_counter_only pipeline (lxs (run sch)) i j (op_texts ops) (lx_of cur) (lx_of snap) (lx_of seen) (lx_of st) Hch El); [| | |exact Hnw].
      + destruct (run sch); [discriminate|]. injection Hc as ->. reflexivity.
      + unfold lxs. rewrite nth_error_map, Hi. reflexivity.
      + unfold lxs. rewrite nth_error_map, Hj. reflexivity.
    - intros [Hl Hn]. destruct (lexicon_ok _ _ _ _ _ _ _ _ Hv Hc Hi Hj Hl) as [lx El].
      destruct (own_facts _ _ _ _ _ _ _ _ _ (cschedule_few pipeline _ H) Hv Ho Hc Hi Hj El) as (own & Ex & Ib & Io & Ss & Go & Gc & Gs & Bl & Sl & Ic & L3 & Em).
      rewrite Em. unfold zt_merge. cbn [zt_sys zt_gen]. rewrite L3. unfold cleared_since_t in *.
      destruct (zt_gen cur =? zt_gen snap) eqn:E1, (zt_gen snap + count_clears ops =? zt_gen snap) eqn:E2; try discriminate; exfalso; cbn [negb] in *.
      + destruct Hcl as [Hcl|Hcl]; [discriminate|]. apply Ccl in Hcl. lia.
      + apply Hn. split; [reflexivity|]. apply Ccl. lia.
  Qed.
End CosCommits.
