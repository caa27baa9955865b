(** * Lemmas: concurrent transactions on a topic index *)
From Verif Require Import Prelude L_zodb S_ztopic SMap Ord.

Section ZTopic.
  Context {I : Type} `{OI : Ord I} {E C : Type}.
  Variable eval : E -> Z -> C -> evres.
  Notation ztopic := (ztopic I E).
  Notation zop := (zop I E C).
  Notation step := (tz_step eval).
  Notation tstep := (fun st o => fst (t_step eval st (to_top o))).

  Definition viewf (fs : smap I (zfilt E)) (hp : mem_heap) : smap I (filt I E) :=
    mmap (fun i q => mkF (q_python q) i (q_expr q) (docs_at hp (q_set q))) fs.
  Definition inj (fs : smap I (zfilt E)) : Prop := forall i j p q, get fs i = Some p -> get fs j = Some q -> q_set p = q_set q -> i = j.
  Record wf (st : ztopic) : Prop := mkWf {
    wf_next : forall i q, get (tz_filters st) i = Some q -> q_set q < next (tz_heap st);
    wf_inj : inj (tz_filters st);
    wf_flag : forall l, fst (load (tz_heap st) l) = false
  }.
  Record ev (o a : ztopic) : Prop := mkEv {
    ev_next : next (tz_heap o) <= next (tz_heap a);
    ev_old : forall i q, get (tz_filters a) i = Some q -> q_set q < next (tz_heap o) -> get (tz_filters o) i = Some q;
    ev_gen : tz_gen o <= tz_gen a;
    ev_clear : tz_gen o < tz_gen a -> forall i q, get (tz_filters a) i = Some q -> next (tz_heap o) <= q_set q
  }.
  Lemma ev_refl st : ev st st.
  Proof. constructor; auto; lia. Qed.
  Lemma ev_trans a b c : ev a b -> ev b c -> ev a c.
  Proof.
    intros [N1 O1 G1 K1] [N2 O2 G2 K2]. constructor; try lia.
    - intros i q Hi Hq. apply O1; [|exact Hq]. apply O2; [exact Hi|lia].
    - intros G i q Hi. destruct (Z.lt_ge_cases (q_set q) (next (tz_heap a))) as [Hq|]; [|assumption]. exfalso.
      assert (Hb : get (tz_filters b) i = Some q) by (apply O2; [exact Hi|lia]).
      destruct (Z.eq_dec (tz_gen a) (tz_gen b)) as [Eg|].
      + assert (next (tz_heap b) <= q_set q) by (apply (K2 ltac:(lia) i q Hi)). lia.
      + assert (next (tz_heap a) <= q_set q) by (apply (K1 ltac:(lia) i q Hb)). lia.
  Qed.

  Lemma load_store l p hp l' : load (M_kwheap.store l p hp) l' = if eqb l' l then p else load hp l'.
  Proof. unfold load, M_kwheap.store; cbn [cells]. rewrite get_put. destruct (eqb l' l); reflexivity. Qed.
  Lemma view_store fs hp i q s : inj fs -> get fs i = Some q ->
    viewf fs (M_kwheap.store (q_set q) (false, s) hp) = put i (mkF (q_python q) i (q_expr q) s) (viewf fs hp).
  Proof.
    intros Hi Hq. apply smap_ext. intros j. rewrite get_put. unfold viewf. rewrite !get_mmap. unfold docs_at.
    destruct (eqb j i) eqn:Ej.
    - apply eqb_eq in Ej as ->. rewrite Hq. cbn [option_map]. rewrite load_store, eqb_refl. reflexivity.
    - destruct (get fs j) as [p|] eqn:Ep; [|reflexivity]. cbn [option_map]. rewrite load_store.
      destruct (eqb (q_set p) (q_set q)) eqn:Es; [|reflexivity]. apply eqb_eq in Es.
      rewrite (Hi _ _ _ _ Ep Hq Es), eqb_refl in Ej. discriminate.
  Qed.

  Lemma index_sim d c fs : inj fs -> forall L hp, (forall i q, In (i, q) L -> get fs i = Some q) ->
    fst (index_filters eval d c (map fst L) (viewf fs hp)) = viewf fs (tz_index eval d c (map snd L) hp).
  Proof.
    intros Hi. induction L as [|[i q] L IH]; intros hp HL; [reflexivity|]. cbn [map fst snd index_filters tz_index].
    assert (Hq : get fs i = Some q) by (apply HL; left; reflexivity).
    assert (HL' : forall i q, In (i, q) L -> get fs i = Some q) by (intros; apply HL; right; assumption).
    assert (Hv : get (viewf fs hp) i = Some (mkF (q_python q) i (q_expr q) (docs_at hp (q_set q)))).
    { unfold viewf. rewrite get_mmap, Hq. reflexivity. }
    assert (Hp : forall x, get (viewf fs hp) i = Some x -> put i x (viewf fs hp) = viewf fs hp).
    { intros x Hx. apply smap_ext. intros j. rewrite get_put. destruct (eqb j i) eqn:Ej; [|reflexivity]. apply eqb_eq in Ej as ->. auto. }
    rewrite Hv. unfold filt_index, tz_filt_index. cbn [f_python f_expr f_id f_ids].
    destruct (q_python q) eqn:Eq; [|reflexivity].
    destruct (eval (q_expr q) d c).
    - rewrite <- IH by exact HL'. rewrite (view_store _ _ _ _ _ Hi Hq), Eq. reflexivity.
    - rewrite Hp by (rewrite Hv; reflexivity). apply IH, HL'.
    - rewrite Hp by (rewrite Hv; reflexivity). apply IH, HL'.
  Qed.

  Lemma unindex_load d qs : forall hp l, docs_at (tz_unindex (E := E) d qs hp) l =
    if existsb (fun q => eqb l (q_set q)) qs then srem d (docs_at hp l) else docs_at hp l.
  Proof.
    induction qs as [|q qs IH]; intros hp l; [reflexivity|].
    change (tz_unindex d (q :: qs) hp) with (tz_unindex d qs (tz_filt_unindex d q hp)). cbn [existsb]. rewrite IH. unfold tz_filt_unindex.
    assert (S : forall s : sset Z, srem d (srem d s) = srem d s).
    { intros s. apply sset_ext. intros k. rewrite !mem_srem. destruct (eqb k d); reflexivity. }
    assert (N : forall s : sset Z, mem d s = false -> srem d s = s).
    { intros s Hs. apply sset_ext. intros k. rewrite mem_srem. destruct (eqb k d) eqn:Ek; [apply eqb_eq in Ek as ->; rewrite Hs; reflexivity|reflexivity]. }
    destruct (mem d (docs_at hp (q_set q))) eqn:Em.
    - unfold docs_at at 1 3. rewrite load_store. destruct (eqb l (q_set q)) eqn:El; cbn [orb snd].
      + apply eqb_eq in El as ->. rewrite S. destruct (existsb _ qs); reflexivity.
      + reflexivity.
    - destruct (eqb l (q_set q)) eqn:El; cbn [orb]; [|reflexivity]. apply eqb_eq in El as ->. rewrite (N _ Em).
      destruct (existsb _ qs); reflexivity.
  Qed.

  (** What calls do to the heap. *)
  Record mild (qs : list (zfilt E)) (hp hp' : mem_heap) : Prop := mkMild {
    mi_next : next hp' = next hp;
    mi_flag : (forall l, fst (load hp l) = false) -> forall l, fst (load hp' l) = false;
    mi_other : forall l, ~ In l (map q_set qs) -> load hp' l = load hp l
  }.
  Lemma mild_refl qs hp : mild qs hp hp.
  Proof. constructor; auto. Qed.
  Lemma mild_store q qs hp hp' s : In q qs -> mild qs (M_kwheap.store (q_set q) (false, s) hp) hp' -> mild qs hp hp'.
  Proof.
    intros Hq [N F O]. constructor.
    - rewrite N. reflexivity.
    - intros H. apply F. intros l. rewrite load_store. destruct (eqb l (q_set q)); [reflexivity|apply H].
    - intros l Hl. rewrite O by exact Hl. rewrite load_store. destruct (eqb l (q_set q)) eqn:El; [|reflexivity].
      apply eqb_eq in El as ->. destruct Hl. apply in_map, Hq.
  Qed.
  Lemma mild_index d c all qs : incl qs all -> forall hp, mild all hp (tz_index eval d c qs hp).
  Proof.
    induction qs as [|q qs IH]; intros Hi hp; cbn [tz_index]; [apply mild_refl|]. assert (Hq : In q all) by (apply Hi; left; reflexivity).
    assert (IH' := IH (fun x Hx => Hi x (or_intror Hx))).
    unfold tz_filt_index. destruct (q_python q); [|apply mild_refl]. destruct (eval (q_expr q) d c); [|apply IH'|apply IH'].
    eapply mild_store; [exact Hq|apply IH'].
  Qed.
  Lemma mild_unindex d all qs : incl qs all -> forall hp, mild all hp (tz_unindex d qs hp).
  Proof.
    induction qs as [|q qs IH]; intros Hi hp; [apply mild_refl|]. assert (Hq : In q all) by (apply Hi; left; reflexivity).
    assert (IH' := IH (fun x Hx => Hi x (or_intror Hx))).
    change (tz_unindex d (q :: qs) hp) with (tz_unindex d qs (tz_filt_unindex d q hp)). unfold tz_filt_unindex.
    destruct (mem d _); [|apply IH']. eapply mild_store; [exact Hq|apply IH'].
  Qed.

  Lemma step_ok st o : wf st -> wf (step st o) /\ ev st (step st o) /\ view (step st o) = tstep (view st) o /\
    (tz_gen (step st o) = tz_gen st + if match o with ZClear => true | _ => false end then 1 else 0).
  Proof.
    intros [N J F]. destruct o as [f|i| |d c|d]; cbn [tz_step to_top t_step fst].
    - unfold tz_add, alloc. cbn [tz_filters tz_heap tz_gen next cells].
      assert (Hl : forall l, load (mkHeap (put (next (tz_heap st)) (false, f_ids f) (cells (tz_heap st))) (next (tz_heap st) + 1)) l =
        if eqb l (next (tz_heap st)) then (false, f_ids f) else load (tz_heap st) l).
      { intros l. unfold load; cbn [cells]. rewrite get_put. destruct (eqb l _); reflexivity. }
      splits.
      + constructor; cbn [tz_filters tz_heap next].
        * intros i q. rewrite get_put. destruct (eqb i (f_id f)); [intros [= <-]; cbn; lia|]. intros H. specialize (N _ _ H). lia.
        * intros i j p q. rewrite !get_put. destruct (eqb i (f_id f)) eqn:Ei, (eqb j (f_id f)) eqn:Ej.
          -- apply eqb_eq in Ei, Ej. congruence.
          -- intros [= <-] Hq Hs. specialize (N _ _ Hq). cbn in Hs. lia.
          -- intros Hp [= <-] Hs. specialize (N _ _ Hp). cbn in Hs. lia.
          -- apply J.
        * intros l. rewrite Hl. destruct (eqb l _); [reflexivity|apply F].
      + constructor; cbn [tz_filters tz_heap next tz_gen]; try lia. intros i q. rewrite get_put. destruct (eqb i (f_id f)); [intros [= <-]; cbn; lia|auto].
      + unfold view, t_addFilter. cbn [tz_filters tz_heap]. apply smap_ext. intros i. rewrite get_put, !get_mmap, get_put.
        destruct (eqb i (f_id f)) eqn:Ei; cbn [option_map].
        * apply eqb_eq in Ei as ->. unfold docs_at. cbn [q_python q_expr q_set]. rewrite Hl, eqb_refl. destruct f; reflexivity.
        * destruct (get (tz_filters st) i) as [q|] eqn:Eq; [|reflexivity]. cbn [option_map]. unfold docs_at. rewrite Hl.
          destruct (eqb (q_set q) (next (tz_heap st))) eqn:En; [|reflexivity]. apply eqb_eq in En. specialize (N _ _ Eq). lia.
      + lia.
    - unfold tz_del. splits.
      + constructor; cbn [tz_filters tz_heap].
        * intros j q. rewrite get_del. destruct (eqb j i); [discriminate|apply N].
        * intros j k p q. rewrite !get_del. destruct (eqb j i); [discriminate|]. destruct (eqb k i); [discriminate|]. apply J.
        * exact F.
      + constructor; cbn [tz_filters tz_heap tz_gen]; try lia. intros j q. rewrite get_del. destruct (eqb j i); [discriminate|auto].
      + unfold t_delFilter, view. cbn [tz_filters tz_heap]. rewrite get_mmap.
        destruct (get (tz_filters st) i) as [q|] eqn:Eq; cbn [option_map fst]; apply smap_ext; intros j; rewrite ?get_del, !get_mmap, get_del;
        destruct (eqb j i) eqn:Ej; try reflexivity. apply eqb_eq in Ej as ->. rewrite Eq. reflexivity.
      + cbn. lia.
    - unfold tz_clear. splits.
      + constructor; cbn [tz_filters tz_heap]; [intros i q; rewrite get_empty; discriminate|intros i j p q; rewrite get_empty; discriminate|exact F].
      + constructor; cbn [tz_filters tz_heap tz_gen]; try lia. all: intros; match goal with H : get empty _ = Some _ |- _ => rewrite get_empty in H; discriminate end.
      + unfold view. cbn [tz_filters]. apply smap_ext. intros i. rewrite get_mmap, !get_empty. reflexivity.
      + reflexivity.
    - unfold on_heap. destruct (mild_index d c _ _ (incl_refl (map snd (elts (tz_filters st)))) (tz_heap st)) as [M1 M2 M3]. splits.
      + constructor; cbn [tz_filters tz_heap]; [rewrite M1; exact N|exact J|apply M2, F].
      + constructor; cbn [tz_filters tz_heap tz_gen]; auto; lia.
      + unfold t_index. unfold view at 2. rewrite keys_mmap.
        exact (eq_sym (index_sim d c _ J (elts (tz_filters st)) (tz_heap st) (fun i q => proj2 (get_In _ i q)))).
      + cbn. lia.
    - unfold on_heap. destruct (mild_unindex d _ _ (incl_refl (map snd (elts (tz_filters st)))) (tz_heap st)) as [M1 M2 M3]. splits.
      + constructor; cbn [tz_filters tz_heap]; [rewrite M1; exact N|exact J|apply M2, F].
      + constructor; cbn [tz_filters tz_heap tz_gen]; auto; lia.
      + unfold view, t_unindex. cbn [tz_filters tz_heap]. apply smap_ext. intros i. rewrite !get_mmap.
        destruct (get (tz_filters st) i) as [q|] eqn:Eq; [|reflexivity]. cbn [option_map]. f_equal.
        rewrite unindex_load. replace (existsb _ _) with true.
        2: { symmetry. apply existsb_exists. exists q. split; [|apply eqb_refl]. apply in_map_iff. exists (i, q). split; [reflexivity|apply get_In, Eq]. }
        unfold filt_unindex. cbn [f_python f_id f_expr f_ids]. destruct (mem d (docs_at (tz_heap st) (q_set q))) eqn:Em; [reflexivity|].
        f_equal. apply sset_ext. intros k. rewrite mem_srem. destruct (eqb k d) eqn:Ek; [apply eqb_eq in Ek as ->; rewrite Em; reflexivity|reflexivity].
      + cbn. lia.
  Qed.

  (** ** Transactions *)
  Notation begin := tz_begin.
  Notation exec := (tz_exec eval).
  Lemma exec_ok ops : forall st, wf st -> wf (exec ops st) /\ ev st (exec ops st) /\ view (exec ops st) = fold_left tstep ops (view st) /\
    (tz_gen (exec ops st) = tz_gen st <-> clears ops = false).
  Proof.
    induction ops as [|o ops IH]; intros st W; [splits; auto using ev_refl; cbn; tauto|].
    destruct (step_ok st o W) as (W1 & E1 & V1 & G1). destruct (IH _ W1) as (W2 & E2 & V2 & G2).
    unfold tz_exec in *. cbn [fold_left]. splits; auto.
    - eapply ev_trans; eassumption.
    - rewrite V2, V1. reflexivity.
    - pose proof (ev_gen _ _ E2) as G3. change (clears (o :: ops)) with ((match o with ZClear => true | _ => false end) || clears ops).
      destruct o; cbn [orb]; rewrite ?Z.add_0_r in G1; rewrite <- ?G2, ?G1; try tauto.
      split; [|discriminate]. rewrite G1 in G3. lia.
  Qed.
  Lemma begin_ok cur snap : wf snap -> ev snap cur -> wf (begin cur snap) /\ view (begin cur snap) = view snap.
  Proof.
    intros [N J F] X. split; [|reflexivity]. constructor; cbn [begin tz_filters tz_heap next]; [|exact J|exact F].
    intros i q Hq. specialize (N _ _ Hq). pose proof (ev_next _ _ X). lia.
  Qed.

  Lemma object_eq (o a : ztopic) i (n : Z) : (forall q, get (tz_filters o) i = Some q -> q_set q < n) ->
    (forall q, get (tz_filters a) i = Some q -> q_set q < n -> get (tz_filters o) i = Some q) ->
    (opt_same same_filter (get (tz_filters a) i) (get (tz_filters o) i) = true <-> get (tz_filters a) i = get (tz_filters o) i) /\
    (filter_object a i = filter_object o i <-> get (tz_filters a) i = get (tz_filters o) i).
  Proof.
    intros Ho Ha. unfold filter_object, opt_same, same_filter.
    destruct (get (tz_filters a) i) as [p|] eqn:Ep, (get (tz_filters o) i) as [q|] eqn:Eq; cbn [option_map]; try (split; split; (discriminate || reflexivity)).
    specialize (Ho q eq_refl). assert (K : q_set p = q_set q -> Some p = Some q).
    { intros H. symmetry. apply Ha; [reflexivity|]. rewrite H. exact Ho. }
    split; split; intros H.
    - apply K, Z.eqb_eq, H.
    - injection H as ->. apply Z.eqb_refl.
    - apply K. injection H as H. exact H.
    - injection H as ->. reflexivity.
  Qed.

  Section Merge.
    Variables o a b st : ztopic.
    Hypothesis Wo : wf o.
    Hypothesis Wa : wf a.
    Hypothesis Wb : wf b.
    Hypothesis Ea : ev o a.
    Hypothesis Eb : ev (begin a o) b.

    Lemma obj_a i : (opt_same same_filter (get (tz_filters a) i) (get (tz_filters o) i) = true <-> get (tz_filters a) i = get (tz_filters o) i) /\
      (filter_object a i = filter_object o i <-> get (tz_filters a) i = get (tz_filters o) i).
    Proof. apply (object_eq o a i (next (tz_heap o))); [intros q; apply (wf_next _ Wo)|intros q; apply (ev_old _ _ Ea)]. Qed.
    Lemma obj_b i : (opt_same same_filter (get (tz_filters b) i) (get (tz_filters o) i) = true <-> get (tz_filters b) i = get (tz_filters o) i) /\
      (filter_object b i = filter_object o i <-> get (tz_filters b) i = get (tz_filters o) i).
    Proof.
      apply (object_eq o b i (next (tz_heap a))).
      - intros q Hq. pose proof (wf_next _ Wo _ _ Hq). pose proof (ev_next _ _ Ea). lia.
      - intros q. apply (ev_old _ _ Eb).
    Qed.

    Lemma has_at (s : ztopic) i d : has s i d = match get (tz_filters s) i with Some q => mem d (docs_at (tz_heap s) (q_set q)) | None => false end.
    Proof. unfold has, view. rewrite get_mmap. destruct (get (tz_filters s) i); reflexivity. Qed.
    Lemma view_at (s : ztopic) i : get (view s) i = option_map (fun q => mkF (q_python q) i (q_expr q) (docs_at (tz_heap s) (q_set q))) (get (tz_filters s) i).
    Proof. unfold view. rewrite get_mmap. reflexivity. Qed.

    Lemma merge_ok : tz_merge o a b = Some st ->
      wf st /\ ev a st /\ tcommitted (cleared_since o a) (negb (tz_gen b =? tz_gen o)) o a b st.
    Proof.
      unfold tz_merge, cleared_since. destruct (Z.eqb_spec (tz_gen a) (tz_gen o)) as [Ga|Ga]; destruct (Z.eqb_spec (tz_gen b) (tz_gen o)) as [Gb|Gb]; cbn [negb tcommitted].
      2: { intros [= <-]. splits; auto. constructor.
           - exact (ev_next _ _ Eb).
           - intros i q Hi Hq. exfalso. assert (next (tz_heap a) <= q_set q); [|lia]. apply (ev_clear _ _ Eb) with i; [|exact Hi].
             pose proof (ev_gen _ _ Eb). cbn in *. lia.
           - pose proof (ev_gen _ _ Eb) as G. cbn [begin tz_gen] in G. lia.
           - intros _ i q Hi. apply (ev_clear _ _ Eb) with i; [|exact Hi]. pose proof (ev_gen _ _ Eb). cbn in *. lia. }
      2: { intros [= <-]. splits; auto using ev_refl. }
      2: discriminate.
      destruct (map3 _ _ _ _) as [fs|] eqn:Ef; [|discriminate]. destruct (heap3 _ _ _) as [hp|] eqn:Eh; [|discriminate]. intros [= <-].
      assert (M : forall i, merged (get (tz_filters o) i) (get (tz_filters a) i) (get (tz_filters b) i) (get fs i)).
      { intros i. pose proof (map3_spec _ _ _ _ _ (fun _ => eq_refl) Ef i) as H. unfold key3 in H.
        destruct (opt_same _ (get (tz_filters a) i) _) eqn:E1.
        - injection H as H. left. split; [exact (proj1 (proj1 (obj_a i)) E1)|symmetry; exact H].
        - destruct (opt_same _ (get (tz_filters b) i) _) eqn:E2; [|discriminate]. injection H as H. right.
          splits; [|exact (proj1 (proj1 (obj_b i)) E2)|symmetry; exact H]. intros Eo. apply (proj2 (proj1 (obj_a i))) in Eo. congruence. }
      destruct (heap3_spec _ _ _ _ Eh) as (Hn & Hb & Ha & Ho).
      pose proof (ev_next _ _ Ea) as Na. pose proof (ev_next _ _ Eb) as Nb. cbn [begin tz_heap next] in Nb.
      (* a filter of the merged version that is older than the transaction is in a *)
      assert (Old : forall i q, get fs i = Some q -> q_set q < next (tz_heap a) -> get (tz_filters a) i = Some q).
      { intros i q Hi Hq. destruct (M i) as [(E1 & E2)|(_ & _ & E2)]; [|congruence]. rewrite E1, Hi in *. apply (ev_old _ _ Eb); [congruence|exact Hq]. }
      assert (New : forall i q, get fs i = Some q -> next (tz_heap a) <= q_set q -> get (tz_filters b) i = Some q).
      { intros i q Hi Hq. destruct (M i) as [(_ & E2)|(_ & _ & E2)]; [congruence|]. exfalso. rewrite Hi in E2. symmetry in E2. pose proof (wf_next _ Wa _ _ E2). lia. }
      splits.
      - constructor; cbn [tz_filters tz_heap].
        + intros i q Hi. rewrite Hn. destruct (Z.lt_ge_cases (q_set q) (next (tz_heap a))); [lia|].
          pose proof (wf_next _ Wb _ _ (New _ _ Hi ltac:(lia))). lia.
        + intros i j p q Hi Hj Hs. destruct (Z.lt_ge_cases (q_set p) (next (tz_heap a))) as [L|L].
          * apply (wf_inj _ Wa i j p q); [apply Old; [exact Hi|lia]|apply Old; [exact Hj|lia]|exact Hs].
          * apply (wf_inj _ Wb i j p q); [apply New; [exact Hi|lia]|apply New; [exact Hj|lia]|exact Hs].
        + intros l. destruct (Z.lt_ge_cases l (next (tz_heap a))) as [L|L]; [|rewrite Hb by exact L; apply (wf_flag _ Wb)].
          destruct (Z.lt_ge_cases l (next (tz_heap o))) as [L'|L']; [|rewrite Ha by assumption; apply (wf_flag _ Wa)].
          pose proof (Ho l L L') as H. apply obj3_merged in H as [[_ ->]|[(_ & _ & ->)|[(_ & _ & _ & -> & _)|[H|H]]]].
          * apply (wf_flag _ Wb).
          * apply (wf_flag _ Wa).
          * apply (wf_flag _ Wo).
          * rewrite (wf_flag _ Wa), (wf_flag _ Wo) in H. congruence.
          * rewrite (wf_flag _ Wb), (wf_flag _ Wo) in H. congruence.
      - constructor; cbn [tz_filters tz_heap tz_gen]; [lia|exact Old|lia|lia].
      - intros i. rewrite (proj2 (obj_a i)), (proj2 (obj_b i)). splits.
        + intros N. destruct (M i) as [(E1 & E2)|(_ & E2 & _)]; [|contradiction]. split; [exact E1|].
          rewrite !view_at. cbn [tz_filters tz_heap]. rewrite E2. destruct (get (tz_filters b) i) as [q|] eqn:Eq; [|reflexivity]. cbn [option_map].
          unfold docs_at. rewrite Hb; [reflexivity|]. destruct (Z.lt_ge_cases (q_set q) (next (tz_heap a))) as [L|L]; [|exact L].
          destruct N. symmetry. apply (ev_old _ _ Eb); assumption.
        + intros E2 N. destruct (M i) as [(E1 & _)|(_ & _ & E3)]; [contradiction|]. rewrite !view_at. cbn [tz_filters tz_heap]. rewrite E3.
          destruct (get (tz_filters a) i) as [q|] eqn:Eq; [|reflexivity]. cbn [option_map].
          unfold docs_at. rewrite Ha; [reflexivity|apply (wf_next _ Wa _ _ Eq)|].
          destruct (Z.lt_ge_cases (q_set q) (next (tz_heap o))) as [L|L]; [|exact L]. destruct N. symmetry. apply (ev_old _ _ Ea); assumption.
        + intros E2 E1. assert (E3 : get fs i = get (tz_filters o) i) by (destruct (M i) as [(_ & H)|(H & _)]; [congruence|contradiction]).
          rewrite !view_at. cbn [tz_filters tz_heap]. setoid_rewrite has_at. cbn [tz_filters tz_heap]. rewrite E1, E2, E3.
          destruct (get (tz_filters o) i) as [q|] eqn:Eq; cbn [option_map]; [|split; [exact Logic.I|]; intros d; split; [reflexivity|congruence]].
          split; [unfold same_but_docs; splits; reflexivity|]. intros d. pose proof (wf_next _ Wo _ _ Eq) as L.
          pose proof (Ho (q_set q) ltac:(lia) L) as H. unfold docs_at.
          apply obj3_merged in H as [[-> ->]|[(_ & -> & ->)|[(_ & _ & _ & _ & H)|[H|H]]]].
          * (split; [congruence|intros ?; split; congruence]).
          * (split; [congruence|intros ?; split; congruence]).
          * destruct (H d) as [(H1 & H2)|(H1 & H2 & H3)]; (split; [congruence|intros ?; split; congruence]).
          * rewrite (wf_flag _ Wa), (wf_flag _ Wo) in H. congruence.
          * rewrite (wf_flag _ Wb), (wf_flag _ Wo) in H. congruence.
    Qed.
  End Merge.

  (** ** All committed versions *)
  Definition vsinv (vs : list ztopic) : Prop := exists cur, hd_error vs = Some cur /\ Forall (fun v => wf v /\ ev v cur) vs.
  Lemma vsinv_new : vsinv [tz_new].
  Proof.
    exists tz_new. split; [reflexivity|]. constructor; [|constructor]. split; [|apply ev_refl].
    constructor; cbn [tz_new tz_filters tz_heap]; [intros i q; rewrite get_empty; discriminate|intros i j p q; rewrite get_empty; discriminate|].
    intros l. unfold load, new_heap; cbn [cells]. rewrite get_empty. reflexivity.
  Qed.
  Lemma commit_ok vs i ops st : vsinv vs -> tz_commit eval vs i ops = Some st -> exists cur snap,
    hd_error vs = Some cur /\ nth_error vs i = Some snap /\ wf st /\ ev cur st /\
    view (exec ops (begin cur snap)) = fold_left tstep ops (view snap) /\
    tcommitted (cleared_since snap cur) (clears ops) snap cur (exec ops (begin cur snap)) st.
  Proof.
    intros (cur & Hc & HF). unfold tz_commit. destruct vs as [|c vs]; [discriminate|]. injection Hc as ->.
    destruct (nth_error (cur :: vs) i) as [snap|] eqn:Es; [|discriminate]. intros H.
    rewrite Forall_forall in HF. destruct (HF cur (or_introl eq_refl)) as (Wc & _). destruct (HF snap (nth_error_In _ _ Es)) as (Ws & Ev).
    destruct (begin_ok cur snap Ws Ev) as (Wb & Vb). destruct (exec_ok ops _ Wb) as (Wo & Eo & Vo & Go).
    destruct (merge_ok snap cur _ st Ws Wc Wo Ev Eo H) as (W & X & T).
    exists cur, snap. split; [reflexivity|]. split; [reflexivity|]. split; [exact W|]. split; [exact X|]. split; [rewrite Vo, Vb; reflexivity|].
    replace (clears ops) with (negb (tz_gen (exec ops (begin cur snap)) =? tz_gen snap)); [exact T|].
    cbn [begin tz_gen] in Go. destruct (Z.eqb_spec (tz_gen (exec ops (begin cur snap))) (tz_gen snap)) as [G|G]; cbn [negb].
    - symmetry. apply Go, G.
    - destruct (clears ops); [reflexivity|]. destruct G. apply Go. reflexivity.
  Qed.
  Lemma vsinv_step vs t : vsinv vs -> vsinv (tz_db_step eval vs t).
  Proof.
    intros Hv. unfold tz_db_step. destruct (tz_commit eval vs (fst t) (snd t)) as [st|] eqn:Ec; [|exact Hv].
    destruct (commit_ok _ _ _ _ Hv Ec) as (cur & snap & Hc & _ & W & X & _). exists st. split; [reflexivity|].
    destruct Hv as (cur' & Hc' & HF). rewrite Hc in Hc'. injection Hc' as <-. constructor; [split; [exact W|apply ev_refl]|].
    eapply Forall_impl; [|exact HF]. intros v (Hw & Hx). split; [exact Hw|eapply ev_trans; eassumption].
  Qed.
  Lemma vsinv_run sch : vsinv (tz_run eval sch).
  Proof.
    unfold tz_run. assert (H := vsinv_new). revert H. generalize [@tz_new I OI E]. induction sch as [|t sch IH]; intros vs H; [exact H|].
    cbn [fold_left]. apply IH, vsinv_step, H.
  Qed.
  Lemma tz_commit_ok sch i ops st : tz_commit eval (tz_run eval sch) i ops = Some st -> exists cur snap own,
    hd_error (tz_run eval sch) = Some cur /\ nth_error (tz_run eval sch) i = Some snap /\
    view own = fold_left tstep ops (view snap) /\ tcommitted (cleared_since snap cur) (clears ops) snap cur own st.
  Proof. intros H. destruct (commit_ok _ _ _ _ (vsinv_run sch) H) as (cur & snap & H1 & H2 & _ & _ & H3 & H4). eauto 8. Qed.
End ZTopic.
