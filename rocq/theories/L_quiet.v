(** * When a query leaves a cosine index alone *)
From Coq Require Import Reals Lra.
From Verif Require Import S_alias M_alias L_alias L_e L_okasearch L_textsys L_cosine L_costext S_score RArith Arith SMap Ord.

(** ** Reached states *)
Section Reached.
  Context {F : Type} {AF : Arith F} {SF : SafeArith F} {EF : SoundEq F}.
  Lemma reached_no_unit pipeline h : history_ok pipeline h ->
    (forall w, In w (vocabulary (docs_of pipeline h)) -> feqb (idf (F := F) (docs_of pipeline h) w) f1 = false) ->
    no_unit (cos_state (F := F) pipeline h).
  Proof.
    intros H Hw wid p i Ep _ Ei. destruct (cos_state_ok (F := F) pipeline h H) as (_ & _ & Hi).
    assert (Hm : mem wid (wordinfo (six (cos_state (F := F) pipeline h))) = true) by (apply mem_get; eauto).
    destruct (wid_word f32 cos_fr cos_keys _ _ Hi wid Hm) as (w & Hv & ->).
    destruct (posting_item f32 cos_fr cos_keys _ _ Hi w Hv) as (p' & Ep' & Hp'). rewrite Ep in Ep'. injection Ep' as <-.
    rewrite Hp', (posting_size f32 cos_fr cos_keys _ _ Hi w), (idf_ok _ w _ Hv (docweight_size f32 cos_fr _ _ Hi)) in Ei.
    injection Ei as <-. exact (Hw w Hv).
  Qed.
  Lemma reached_quiet space upper qpipeline pipeline h q : history_ok pipeline h ->
    (forall w, In w (vocabulary (docs_of pipeline h)) -> feqb (idf (F := F) (docs_of pipeline h) w) f1 = false) ->
    let r := o_apply cos_read cos_write space upper qpipeline pipeline cos_objs (cos_query_weight (F := F) pipeline) (cos_state pipeline h) q in
    fst r = cos_state pipeline h /\ private_answer (snd r).
  Proof. intros H Hw. apply cos_quiet. exact (reached_no_unit pipeline h H Hw). Qed.
End Reached.

(** ** Real numbers *)
Lemma real_no_unit (s : sys R) : no_unit s.
Proof.
  intros wid p i _ _. unfold inverse_doc_frequency, py_div, py_log. rarith.
  destruct (Req_EM_T (IZR (Zsize (p_map p))) 0) as [E|E]; cbn [bind]; [discriminate|].
  destruct (Rle_dec _ 0) as [E2|E2]; [discriminate|]. intros H; injection H as <-.
  destruct (Req_EM_T _ 1) as [E3|E3]; [|reflexivity]. exfalso.
  assert (Hn : 0 < Zsize (p_map p)).
  { assert (0 <= Zsize (p_map p)) by (unfold Zsize; lia). assert (Zsize (p_map p) <> 0) by (intros G; apply E; rewrite G; reflexivity). lia. }
  apply (ln_rational (Zsize (p_map p) + Zsize (docweight (six s))) (Zsize (p_map p)) Hn).
  rewrite <- E3. f_equal. rewrite plus_IZR. field. exact E.
Qed.

(** ** Histories *)
Lemma okapi_events {F} {AF : Arith F} sw read write space upper qpipeline pipeline (qweight : sys Z -> list ltext -> res F) evs :
  q_run (op_step pipeline (okapi_index_doc pipeline) okapi_unindex_doc)
    (fun s q => fst (o_apply read write space upper qpipeline pipeline (okapi_objs sw) qweight s q)) evs (mkSys lex_new ix_new) =
  okapi_run pipeline (updates evs).
Proof.
  apply q_run_updates. intros s q. exact (proj1 (okapi_quiet sw read write space upper qpipeline pipeline qweight s q 0 None)).
Qed.
Lemma real_events space upper qpipeline pipeline evs :
  q_run (op_step pipeline (cos_index_doc pipeline) base_unindex_doc)
    (fun s q => fst (o_apply cos_read cos_write space upper qpipeline pipeline cos_objs (cos_query_weight (F := R) pipeline) s q))
    evs (mkSys lex_new ix_new) =
  cos_run pipeline (updates evs).
Proof.
  apply q_run_updates. intros s q. exact (proj1 (cos_quiet space upper qpipeline pipeline s q (real_no_unit s))).
Qed.

(** ** Postings with more than ten documents are BTrees *)
Section Dict.
  Context {F : Type} {AF : Arith F}.
  Definition few (wi : smap Z (posting F)) : Prop := forall wid p, get wi wid = Some p -> p_dict p = true -> Zsize (p_map p) <= DICT_CUTOFF.
  Definition dict_few (s : sys F) : Prop := few (wordinfo (six s)).
  Definition keeps {A} (m : sx (sys F) A) : Prop := forall s, dict_few s -> dict_few (fst (m s)).
  Lemma keeps_bind {A B} (m : sx (sys F) A) (f : A -> sx (sys F) B) : keeps m -> (forall a, keeps (f a)) -> keeps (sbind m f).
  Proof.
    intros Hm Hf s Hs. unfold sbind. specialize (Hm s Hs). destruct (m s) as [s1 [a|e]]; [exact (Hf a s1 Hm)|exact Hm].
  Qed.
  Lemma keeps_lift {A} (f : sys F -> res A) : keeps (slift f).
  Proof. intros s Hs. exact Hs. Qed.
  Lemma keeps_ret {A} (a : A) : keeps (sret a).
  Proof. intros s Hs. exact Hs. Qed.
  Lemma keeps_iter {A} (f : A -> sx (sys F) unit) l : (forall a, keeps (f a)) -> keeps (siter f l).
  Proof. intros H. induction l as [|a l IH]; [apply keeps_ret|]. cbn [siter]. apply keeps_bind; auto. Qed.
  Lemma keeps_on f : (forall ix, few (wordinfo ix) -> few (wordinfo (f ix))) -> keeps (on_ix f).
  Proof. intros H s Hs. exact (H _ Hs). Qed.
  Lemma keeps_src pipeline t : keeps (source pipeline t).
  Proof. intros s Hs. unfold source. destruct (sourceToWordIds _ _ _). exact Hs. Qed.

  Lemma few_put wi wid p : few wi -> (p_dict p = true -> Zsize (p_map p) <= DICT_CUTOFF) -> few (put wid p wi).
  Proof.
    intros H Hp wid' p' E. rewrite get_put in E. destruct (eqb wid' wid); [injection E as <-; exact Hp|exact (H wid' p' E)].
  Qed.
  Lemma put_few (p : posting F) d v : (p_dict p = true -> Zsize (p_map p) < DICT_CUTOFF) ->
    p_dict (p_set f32 d v p) = true -> Zsize (p_map (p_set f32 d v p)) <= DICT_CUTOFF.
  Proof.
    intros H Hd. cbn [p_set p_dict p_map] in *. specialize (H Hd). destruct (get (p_map p) d) eqn:E; [rewrite (Zsize_put_old _ _ _ _ E)|rewrite (Zsize_put_new _ _ _ E)]; lia.
  Qed.
  Lemma convert_few (p : posting F) : (p_dict p = true -> Zsize (p_map p) <= DICT_CUTOFF) ->
    p_dict (convert f32 p) = true -> Zsize (p_map (convert f32 p)) < DICT_CUTOFF.
  Proof.
    intros H. unfold convert. destruct (p_dict p) eqn:Ed; cbn [andb].
    - destruct (Z.eqb_spec (Zsize (p_map p)) DICT_CUTOFF) as [E|E]; cbn [p_dict p_map]; [discriminate|]. intros _. specialize (H eq_refl). lia.
    - rewrite Ed. discriminate.
  Qed.
  Lemma new_few d v : p_dict (p_set f32 d v (mkPosting true (empty : smap Z F))) = true ->
    Zsize (p_map (p_set f32 d v (mkPosting true (empty : smap Z F)))) <= DICT_CUTOFF.
  Proof. apply put_few. intros _. reflexivity. Qed.
  Lemma add_few wid v d (ix : bindex F) : few (wordinfo ix) -> few (wordinfo (add_wordinfo f32 wid v d ix)).
  Proof.
    intros H. unfold add_wordinfo. destruct (get (wordinfo ix) wid) as [p|] eqn:E; cbn [wordinfo set_wordinfo change_wordCount].
    - apply few_put; [exact H|]. apply put_few, convert_few. exact (H wid p E).
    - apply few_put; [exact H|]. apply new_few.
  Qed.
  Lemma mass_few ws d (ix : bindex F) : few (wordinfo ix) -> few (wordinfo (mass_add_wordinfo f32 ws d ix)).
  Proof.
    intros H. unfold mass_add_wordinfo.
    assert (G : forall l acc, few (fst acc) -> few (fst (fold_left (mass_step f32 d) l acc))).
    { induction l as [|kv l IH]; intros [wi n] Ha; [exact Ha|]. cbn [fold_left]. apply IH. cbn [fst] in Ha. unfold mass_step.
      destruct (get wi (fst kv)) as [p|] eqn:E; cbn [fst]; (apply few_put; [exact Ha|]); [|apply new_few].
      apply put_few, convert_few. exact (Ha _ p E). }
    specialize (G (elts ws) (wordinfo ix, 0) H). destruct (fold_left _ _ _) as [wi n]. exact G.
  Qed.
  Lemma keeps_del wid d : keeps (del_wordinfo wid d).
  Proof.
    intros s Hs. unfold del_wordinfo, sbind, slift, item. destruct (get (wordinfo (six s)) wid) as [p|] eqn:E; [|exact Hs].
    destruct (get (p_map p) d) as [v|] eqn:Ev; [|exact Hs]. destruct (is_empty _).
    - intros wid' p'. cbn [on_ix smod fst six wordinfo change_wordCount set_wordinfo]. rewrite get_del. destruct (eqb wid' wid); [discriminate|apply Hs].
    - cbn [on_ix smod fst six wordinfo set_wordinfo]. unfold dict_few. cbn [six wordinfo set_wordinfo]. apply few_put; [exact Hs|]. cbn [p_dict p_map]. intros Hd. specialize (Hs wid p E Hd).
      rewrite (Zsize_del _ _ _ Ev). lia.
  Qed.
  Lemma keeps_delitem {A} (sel : bindex F -> smap Z A) upd k : (forall m ix, wordinfo (upd m ix) = wordinfo ix) -> keeps (delitem sel upd k).
  Proof. intros H. apply keeps_bind; [apply keeps_lift|]. intros _. apply keeps_on. intros ix. rewrite H. auto. Qed.
  Lemma keeps_unindex d : keeps (base_unindex_doc (V := F) d).
  Proof.
    intros s Hs. unfold base_unindex_doc. destruct (negb _); [exact Hs|]. revert s Hs.
    change (keeps (sdo wids <- slift (fun s : sys F => get_words (six s) d);
       sdo _ <- siter (fun wid => del_wordinfo wid d) (selems (set_of_list wids));
       sdo _ <- delitem docwords set_docwords d;
       sdo _ <- delitem docweight set_docweight d;
       on_ix (change_documentCount (-1)))).
    apply keeps_bind; [apply keeps_lift|]. intros wids. apply keeps_bind; [apply keeps_iter; intros; apply keeps_del|]. intros _.
    apply keeps_bind; [apply keeps_delitem; reflexivity|]. intros _. apply keeps_bind; [apply keeps_delitem; reflexivity|]. intros _.
    apply keeps_on. auto.
  Qed.
  Lemma keeps_reindex freqs d src : keeps src -> keeps (base_reindex_with f32 feqb freqs d src).
  Proof.
    intros Hsrc. unfold base_reindex_with.
    apply keeps_bind; [apply keeps_lift|]. intros old. apply keeps_bind; [apply keeps_lift|]. intros [oldw o].
    apply keeps_bind; [exact Hsrc|]. intros new. apply keeps_bind; [apply keeps_lift|]. intros [neww n]. cbv zeta.
    apply keeps_bind; [apply keeps_iter; intros; apply keeps_del|]. intros _.
    apply keeps_bind.
    { apply keeps_iter. intros wid. apply keeps_bind; [apply keeps_lift|]. intros w. apply keeps_on. intros ix. apply add_few. }
    intros _. apply keeps_bind.
    { apply keeps_iter. intros wid. apply keeps_bind; [apply keeps_lift|]. intros w. apply keeps_bind; [apply keeps_lift|]. intros w'.
      destruct (negb _); [apply keeps_on; intros ix; apply add_few|apply keeps_ret]. }
    intros _. apply keeps_bind; [apply keeps_on; auto|]. intros _. apply keeps_bind; [apply keeps_lift|]. intros c.
    apply keeps_bind; [apply keeps_on; auto|]. intros _. apply keeps_ret.
  Qed.
  Lemma keeps_index pipeline d t : keeps (cos_index_doc (F := F) pipeline d t).
  Proof.
    intros s Hs. unfold cos_index_doc, cos_index_doc_with, base_index_doc_with. destruct (has_doc _ _).
    - exact (keeps_reindex cos_freqs d _ (keeps_src pipeline t) s Hs).
    - revert s Hs. apply keeps_bind; [apply keeps_src|]. intros wids. apply keeps_bind; [apply keeps_lift|]. intros [w n].
      apply keeps_bind; [apply keeps_on; intros ix; apply mass_few|]. intros _. apply keeps_bind; [apply keeps_on; auto|]. intros _.
      apply keeps_bind; [apply keeps_lift|]. intros c. apply keeps_bind; [apply keeps_on; auto|]. intros _.
      apply keeps_bind; [apply keeps_on; auto|]. intros _. apply keeps_ret.
  Qed.
  Lemma state_few pipeline h : dict_few (cos_state (F := F) pipeline h).
  Proof.
    unfold cos_state, cos_run, run_ops.
    apply (keeps_iter (op_step pipeline (cos_index_doc pipeline) base_unindex_doc)); [|intros wid p E; discriminate].
    intros [d t|d| |o].
    - apply keeps_bind; [apply keeps_index|]. intros _. apply keeps_ret.
    - apply keeps_unindex.
    - apply keeps_on. intros ix _ wid p E. discriminate.
    - intros s Hs. exact Hs.
  Qed.
End Dict.
