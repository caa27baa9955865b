(** * Lemmas about a topic index stored in a ZODB *)
From Verif Require Import S_ptopic M_ptopic S_topic M_topic L_topic SMap Ord.

Section L.
  Context {I : Type} `{OI : Ord I} {E C : Type}.
  Variable eval : E -> Z -> C -> evres.
  Notation filt := (filt I E).
  Notation top := (top I E C).
  Notation fobj := (fobj I E).
  Notation pstate := (pstate I E).
  Notation pevent := (pevent I E C).
  Notation p_call := (p_call eval).
  Notation p_step := (p_step eval).
  Notation p_run := (p_run eval).
  Implicit Types (fs : smap I fobj) (st : pstate) (i j k : I) (o : fobj) (evs : list pevent) (ks : sset I).

  (** ** Tables *)
  Definition filt_of (ss : smap Z (sset Z)) o : filt := mkF (o_python o) (o_id o) (o_expr o) (set_of ss (o_set o)).
  Lemma get_view fs ss i : get (view fs ss) i = match get fs i with Some o => Some (filt_of ss o) | None => None end.
  Proof. unfold view. rewrite get_mmap. reflexivity. Qed.
  Lemma mem_view fs ss i : mem i (view fs ss) = mem i fs.
  Proof. unfold mem. rewrite get_view. destruct (get fs i); reflexivity. Qed.
  Lemma keys_view fs ss : keys (view fs ss) = keys fs.
  Proof. apply keys_mmap. Qed.
  Lemma get_mix ks (a b : smap I fobj) i : get (mix ks a b) i = if mem i ks then get a i else get b i.
  Proof.
    unfold mix. rewrite get_merge by reflexivity. rewrite get_merge by reflexivity. unfold mem.
    destruct (get ks i) as [[]|]; cbn; [destruct (get a i)|]; reflexivity.
  Qed.
  Lemma set_of_put ss r s r' : set_of (put r s ss) r' = if eqb r' r then s else set_of ss r'.
  Proof. unfold set_of. rewrite get_put. destruct (eqb r' r); reflexivity. Qed.

  Definition okt (own : Z -> option I) (n : Z) (t : smap I fobj) : Prop :=
    forall k o, get t k = Some o -> own (o_set o) = Some k /\ o_set o < n.
  Lemma okt_put own n t k o : okt own n t -> own (o_set o) = Some k -> o_set o < n -> okt own n (put k o t).
  Proof.
    intros H H1 H2 k' o'. rewrite get_put. destruct (eqb k' k) eqn:E1; [|apply H].
    intros [= <-]. apply eqb_eq in E1. subst. split; [exact H1|exact H2].
  Qed.
  Lemma okt_del own n t k : okt own n t -> okt own n (del k t).
  Proof. intros H k' o'. rewrite get_del. destruct (eqb k' k); [discriminate|apply H]. Qed.
  Lemma okt_mix own n ks a b : okt own n a -> okt own n b -> okt own n (mix ks a b).
  Proof. intros Ha Hb k o. rewrite get_mix. destruct (mem k ks); [apply Ha|apply Hb]. Qed.
  Lemma okt_empty own n : okt own n empty.
  Proof. intros k o H. discriminate. Qed.

  Definition wf st : Prop := exists own,
    okt own (fresh st) (filters st) /\ okt own (fresh st) (s_filters st) /\
    (forall t d, replaced st = Some (t, d) -> okt own (fresh st) t) /\
    (forall r, mem r (s_sets st) = true -> r < fresh st).

  Lemma view_set_other fs ss own n i o s : okt own n fs -> get fs i = Some o ->
    forall j, get (view fs (put (o_set o) s ss)) j =
      if eqb j i then Some (mkF (o_python o) (o_id o) (o_expr o) s) else get (view fs ss) j.
  Proof.
    intros Hok Hi j. rewrite !get_view. destruct (eqb j i) eqn:Ej.
    - apply eqb_eq in Ej; subst j. rewrite Hi. unfold filt_of. rewrite set_of_put, eqb_refl. reflexivity.
    - destruct (get fs j) as [o'|] eqn:Ho; [|reflexivity]. unfold filt_of. rewrite set_of_put.
      destruct (eqb (o_set o') (o_set o)) eqn:Er; [|reflexivity]. apply eqb_eq in Er.
      destruct (Hok _ _ Hi) as [H1 _]. destruct (Hok _ _ Ho) as [H2 _]. rewrite Er, H1 in H2.
      injection H2 as ->. rewrite eqb_refl in Ej. discriminate.
  Qed.

  (** ** Calls *)
  Definition upd (own : Z -> option I) (r : Z) (i : I) : Z -> option I := fun x => if eqb x r then Some i else own x.
  Lemma okt_upd own n i t : okt own n t -> okt (upd own n i) (n + 1) t.
  Proof.
    intros H k o Hk. destruct (H k o Hk) as [H1 H2]. split; [|lia]. unfold upd.
    destruct (eqb (o_set o) n) eqn:Ex; [|exact H1]. apply eqb_eq in Ex. lia.
  Qed.
  Lemma wf_new_set st s i (o : fobj) : wf st -> o_set o = fresh st -> forall d,
    wf (mkP (put i o (filters st)) (put (fresh st) s (sets st)) (fresh st + 1) d (replaced st) (s_filters st) (s_sets st)).
  Proof.
    intros (own & H1 & H2 & H3 & H4) Ho d. exists (upd own (fresh st) i). cbn.
    split; [|split; [|split]].
    - apply okt_put; [apply okt_upd, H1| |lia]. rewrite Ho. unfold upd. rewrite eqb_refl. reflexivity.
    - apply okt_upd, H2.
    - intros t d' Ht. apply okt_upd, (H3 t d' Ht).
    - intros r Hr. specialize (H4 r Hr). lia.
  Qed.
  Lemma view_new fs ss own n i o s : okt own n fs -> o_set o = n ->
    forall j, get (view (put i o fs) (put n s ss)) j =
      if eqb j i then Some (mkF (o_python o) (o_id o) (o_expr o) s) else get (view fs ss) j.
  Proof.
    intros Hok Ho j. rewrite !get_view, get_put. destruct (eqb j i) eqn:Ej.
    - unfold filt_of. rewrite set_of_put, Ho, eqb_refl. reflexivity.
    - destruct (get fs j) as [o'|] eqn:Hj; [|reflexivity]. unfold filt_of. rewrite set_of_put.
      destruct (Hok _ _ Hj) as [_ H2]. replace (eqb (o_set o') n) with false; [reflexivity|].
      symmetry. apply eqb_neq. lia.
  Qed.

  Lemma wf_add f st : wf st -> wf (p_add f st).
  Proof. intros H. exact (wf_new_set st (f_ids f) (f_id f) (mkO (f_python f) (f_id f) (f_expr f) (fresh st)) H eq_refl (sadd (f_id f) (dirty st))). Qed.
  Lemma live_add f st : wf st -> p_live (p_add f st) = put (f_id f) f (p_live st).
  Proof.
    intros (own & H1 & _). apply smap_ext. intros j. unfold p_live, p_add, new_set, store. cbn [filters sets].
    rewrite (view_new _ _ own (fresh st) _ _ _ H1) by reflexivity. cbn [o_python o_id o_expr].
    rewrite get_put. destruct f; reflexivity.
  Qed.
  Lemma put_same_id' {V} k (v : V) (m : smap I V) : get m k = Some v -> put k v m = m.
  Proof.
    intros H. apply smap_ext. intros j. rewrite get_put. destruct (eqb j k) eqn:Ex; [|reflexivity].
    apply eqb_eq in Ex. congruence.
  Qed.
  Lemma again_filters i st : filters (p_again i st) = filters st.
  Proof. unfold p_again. destruct (get (filters st) i) as [o|] eqn:Ei; [|reflexivity]. apply put_same_id', Ei. Qed.
  Lemma wf_again i st : wf st -> wf (p_again i st).
  Proof.
    intros H. pose proof (again_filters i st) as Hf. unfold p_again in *. destruct (get (filters st) i); [|exact H].
    destruct H as (own & H). exists own. rewrite Hf. exact H.
  Qed.
  Lemma live_again i st : p_live (p_again i st) = p_live st.
  Proof.
    unfold p_live. rewrite again_filters. unfold p_again. destruct (get (filters st) i); reflexivity.
  Qed.
  Lemma wf_del i st : wf st -> wf (p_del i st).
  Proof.
    intros H. unfold p_del. destruct (get (filters st) i); [|exact H]. destruct H as (own & H1 & H).
    exists own. split; [apply okt_del, H1|exact H].
  Qed.
  Lemma live_del i st : p_live (p_del i st) = fst (t_delFilter i (p_live st)).
  Proof.
    unfold p_del, t_delFilter, p_live. rewrite get_view. destruct (get (filters st) i) as [o|] eqn:Ei; [|reflexivity].
    cbn [fst store filters sets]. apply smap_ext. intros j. rewrite get_view, !get_del, get_view.
    destruct (eqb j i); reflexivity.
  Qed.
  Lemma wf_clear st : wf st -> wf (p_clear st).
  Proof.
    intros (own & H1 & H2 & H3 & H4). exists own. cbn. split; [apply okt_empty|split; [exact H2|split; [|exact H4]]].
    intros t d. destruct (replaced st) as [x|]; [exact (H3 t d)|]. intros [= <- _]. exact H1.
  Qed.
  Lemma live_clear st : p_live (p_clear st) = empty.
  Proof. apply smap_ext. intros j. unfold p_live. rewrite get_view. reflexivity. Qed.
  Lemma wf_clear_one st i : wf st -> wf (p_clear_one st i).
  Proof.
    intros H. unfold p_clear_one. destruct (get (filters st) i) as [o|]; [|exact H].
    exact (wf_new_set st empty i (mkO (o_python o) (o_id o) (o_expr o) (fresh st)) H eq_refl (dirty st)).
  Qed.
  Lemma live_clear_one st i : wf st -> forall j,
    get (p_live (p_clear_one st i)) j =
      if eqb j i then match get (p_live st) i with Some f => Some (filt_clear f) | None => None end else get (p_live st) j.
  Proof.
    intros (own & H1 & _) j. unfold p_clear_one, p_live. destruct (get (filters st) i) as [o|] eqn:Ei.
    - cbn [new_set set_filters filters sets]. rewrite (view_new _ _ own (fresh st)) by (assumption || reflexivity).
      rewrite (get_view _ _ i), Ei. reflexivity.
    - destruct (eqb j i) eqn:Ej; [|reflexivity]. apply eqb_eq in Ej; subst. rewrite get_view, Ei. reflexivity.
  Qed.
  Lemma mem_clear_one st i j : mem j (filters (p_clear_one st i)) = mem j (filters st).
  Proof.
    unfold p_clear_one. destruct (get (filters st) i) as [o|] eqn:Ei; [|reflexivity]. cbn. rewrite mem_put.
    destruct (eqb j i) eqn:Ej; [|reflexivity]. apply eqb_eq in Ej; subst. unfold mem. rewrite Ei. reflexivity.
  Qed.
  Lemma clears l st : wf st ->
    let st' := fold_left p_clear_one l st in
    wf st' /\ (forall j, mem j (filters st') = mem j (filters st)) /\
    dirty st' = dirty st /\ replaced st' = replaced st /\ s_filters st' = s_filters st /\ s_sets st' = s_sets st /\
    forall j, get (p_live st') j =
      if existsb (eqb j) l then match get (p_live st) j with Some f => Some (filt_clear f) | None => None end else get (p_live st) j.
  Proof.
    revert st; induction l as [|i l IH]; intros st H; cbn [fold_left existsb].
    - split; [exact H|]. repeat split; reflexivity.
    - destruct (IH _ (wf_clear_one st i H)) as (G1 & G2 & G3 & G4 & G5 & G6 & G7).
      assert (F : dirty (p_clear_one st i) = dirty st /\ replaced (p_clear_one st i) = replaced st /\
                  s_filters (p_clear_one st i) = s_filters st /\ s_sets (p_clear_one st i) = s_sets st)
        by (unfold p_clear_one; destruct (get (filters st) i); repeat split; reflexivity).
      destruct F as (F1 & F2 & F3 & F4). split; [exact G1|]. split; [intros j; rewrite G2; apply mem_clear_one|].
      split; [congruence|]. split; [congruence|]. split; [congruence|]. split; [congruence|].
      intros j. rewrite G7, !live_clear_one by exact H. destruct (eqb j i) eqn:Ej; [|reflexivity].
      apply eqb_eq in Ej; subst j. destruct (get (p_live st) i) as [f|]; [|destruct (existsb _ _); reflexivity].
      destruct (existsb _ _); [|reflexivity]. destruct f; reflexivity.
  Qed.
  Lemma live_clearFilters st : wf st -> p_live (p_clearFilters st) = t_clearFilters (p_live st).
  Proof.
    intros H. unfold p_clearFilters, t_clearFilters. destruct (clears (keys (filters st)) st H) as (_ & _ & _ & _ & _ & _ & G).
    apply smap_ext. intros j. rewrite G, get_mmap. destruct (existsb (eqb j) (keys (filters st))) eqn:Ex; [reflexivity|].
    destruct (get (p_live st) j) as [f|] eqn:Ej; [|reflexivity]. exfalso.
    assert (Hx : existsb (eqb j) (keys (filters st)) = true); [|congruence].
    apply existsb_eqb_In. rewrite <- (keys_view _ (sets st)). apply keys_In. exists f. exact Ej.
  Qed.
  Lemma wf_setExpr i e st : wf st -> wf (p_setExpr i e st).
  Proof.
    intros H. unfold p_setExpr. destruct (get (filters st) i) as [o|] eqn:Ei; [|exact H].
    destruct H as (own & H1 & H). exists own. split; [|exact H]. destruct (H1 _ _ Ei). apply okt_put; assumption.
  Qed.
  Lemma live_setExpr i e st : p_live (p_setExpr i e st) =
    match get (p_live st) i with Some f => put i (filt_setExpression e f) (p_live st) | None => p_live st end.
  Proof.
    unfold p_setExpr, p_live. rewrite get_view. destruct (get (filters st) i) as [o|] eqn:Ei; [|reflexivity].
    cbn [set_filters filters sets]. apply smap_ext. intros j. rewrite get_view, !get_put, get_view.
    destruct (eqb j i); reflexivity.
  Qed.

  (** Calls that only change Sets *)
  Definition same_but_sets st st' : Prop :=
    filters st' = filters st /\ fresh st' = fresh st /\ dirty st' = dirty st /\ replaced st' = replaced st /\
    s_filters st' = s_filters st /\ s_sets st' = s_sets st.
  Lemma sbs_refl st : same_but_sets st st.
  Proof. repeat split; reflexivity. Qed.
  Lemma sbs_sets ss st : same_but_sets st (set_sets ss st).
  Proof. repeat split; reflexivity. Qed.
  Lemma sbs_trans a b c : same_but_sets a b -> same_but_sets b c -> same_but_sets a c.
  Proof. unfold same_but_sets. intuition congruence. Qed.
  Lemma sbs_wf st st' : same_but_sets st st' -> wf st -> wf st'.
  Proof.
    intros (H1 & H2 & H3 & H4 & H5 & H6) (own & G1 & G2 & G3 & G4). exists own. rewrite H1, H2, H4, H5, H6. auto.
  Qed.
  Lemma live_put_set st i o s : wf st -> get (filters st) i = Some o ->
    p_live (set_sets (put (o_set o) s (sets st)) st) = put i (mkF (o_python o) (o_id o) (o_expr o) s) (p_live st).
  Proof.
    intros (own & H1 & _) Hi. apply smap_ext. intros j. rewrite get_put. unfold p_live. cbn [set_sets filters sets].
    apply (view_set_other _ _ own (fresh st)); assumption.
  Qed.
  Lemma index_sbs d c ids st : same_but_sets st (p_index eval d c ids st).
  Proof.
    revert st; induction ids as [|i ids IH]; intros st; cbn [p_index]; [apply sbs_refl|].
    destruct (get (filters st) i) as [o|]; [|apply IH]. destruct (o_python o); [|apply sbs_refl].
    destruct (eval _ _ _); try apply IH. eapply sbs_trans; [apply sbs_sets|apply IH].
  Qed.
  Lemma live_index d c ids st : wf st -> p_live (p_index eval d c ids st) = fst (index_filters eval d c ids (p_live st)).
  Proof.
    revert st; induction ids as [|i ids IH]; intros st H; cbn [p_index index_filters]; [reflexivity|].
    assert (Hv : get (p_live st) i = match get (filters st) i with Some o => Some (filt_of (sets st) o) | None => None end)
      by apply get_view.
    rewrite Hv. destruct (get (filters st) i) as [o|] eqn:Ei; [|apply IH, H].
    unfold filt_index. cbn [filt_of f_python f_expr f_id f_ids]. destruct (o_python o) eqn:Ep; [|reflexivity].
    assert (Hs : p_live st = put i (filt_of (sets st) o) (p_live st)) by (symmetry; apply put_same_id'; exact Hv).
    destruct (eval (o_expr o) d c).
    - rewrite IH by (eapply sbs_wf; [apply sbs_sets|exact H]). rewrite (live_put_set st i o _ H Ei).
      rewrite Ep. reflexivity.
    - rewrite <- Hs. apply IH, H.
    - rewrite <- Hs. apply IH, H.
  Qed.
  Lemma unindex_one_sbs d st i : same_but_sets st (p_unindex_one d st i).
  Proof. unfold p_unindex_one. destruct (get (filters st) i); [apply sbs_sets|apply sbs_refl]. Qed.
  Lemma live_unindex_one d st i : wf st -> forall j,
    get (p_live (p_unindex_one d st i)) j =
      if eqb j i then match get (p_live st) i with Some f => Some (filt_unindex d f) | None => None end else get (p_live st) j.
  Proof.
    intros H j. unfold p_unindex_one.
    assert (Hv : get (p_live st) i = match get (filters st) i with Some o => Some (filt_of (sets st) o) | None => None end)
      by apply get_view.
    rewrite Hv. destruct (get (filters st) i) as [o|] eqn:Ei.
    - rewrite (live_put_set st i o _ H Ei), get_put. destruct (eqb j i); [|reflexivity]. f_equal.
      unfold filt_unindex. cbn [filt_of f_python f_expr f_id f_ids]. destruct (mem d (set_of (sets st) (o_set o))) eqn:Em; [reflexivity|].
      unfold filt_of. f_equal. apply smap_ext. intros x. unfold srem. rewrite get_del. destruct (eqb x d) eqn:Ex; [|reflexivity].
      apply eqb_eq in Ex; subst x. symmetry. apply mem_false, Em.
    - destruct (eqb j i) eqn:Ej; [|reflexivity]. apply eqb_eq in Ej; subst. exact Hv.
  Qed.
  Lemma unindexes d l st : wf st ->
    let st' := fold_left (p_unindex_one d) l st in
    same_but_sets st st' /\
    forall j, get (p_live st') j =
      if existsb (eqb j) l then match get (p_live st) j with Some f => Some (filt_unindex d f) | None => None end else get (p_live st) j.
  Proof.
    revert st; induction l as [|i l IH]; intros st H; cbn [fold_left existsb].
    - split; [apply sbs_refl|reflexivity].
    - pose proof (unindex_one_sbs d st i) as Hs. destruct (IH _ (sbs_wf _ _ Hs H)) as (G1 & G2).
      split; [eapply sbs_trans; eassumption|]. intros j. rewrite G2, !live_unindex_one by exact H.
      destruct (eqb j i) eqn:Ej; [|reflexivity].
      apply eqb_eq in Ej; subst j. cbn [orb]. destruct (get (p_live st) i) as [f|]; [|destruct (existsb _ _); reflexivity].
      destruct (existsb _ _); [|reflexivity]. f_equal. unfold filt_unindex at 1.
      destruct (mem d (f_ids (filt_unindex d f))) eqn:Em; [|reflexivity].
      rewrite unindex_ids, eqb_refl in Em. discriminate.
  Qed.
  Lemma live_unindex d st : wf st -> p_live (p_unindex d st) = t_unindex d (p_live st).
  Proof.
    intros H. unfold p_unindex, t_unindex. destruct (unindexes d (keys (filters st)) st H) as (_ & G).
    apply smap_ext. intros j. rewrite G, get_mmap. destruct (existsb (eqb j) (keys (filters st))) eqn:Ex; [reflexivity|].
    destruct (get (p_live st) j) as [f|] eqn:Ej; [|reflexivity]. exfalso.
    assert (Hx : existsb (eqb j) (keys (filters st)) = true); [|congruence].
    apply existsb_eqb_In. rewrite <- (keys_view _ (sets st)). apply keys_In. exists f. exact Ej.
  Qed.

  Lemma call_wf c st : wf st -> wf (p_call st c).
  Proof.
    intros H. destruct c as [[f|i| | |i e|d c|d]|i]; cbn [M_ptopic.p_call].
    - apply wf_add, H.
    - apply wf_del, H.
    - apply wf_clear, H.
    - apply (clears _ _ H).
    - apply wf_setExpr, H.
    - eapply sbs_wf; [apply index_sbs|exact H].
    - eapply sbs_wf; [apply (unindexes d (keys (filters st)) st H)|exact H].
    - apply wf_again, H.
  Qed.
  Lemma call_live c st : wf st ->
    p_live (p_call st c) = match c with PCall o => fst (t_step eval (p_live st) o) | PAgain _ => p_live st end.
  Proof.
    intros H. destruct c as [[f|i| | |i e|d c|d]|i]; cbn [M_ptopic.p_call t_step fst].
    - apply live_add, H.
    - apply live_del.
    - apply live_clear.
    - apply live_clearFilters, H.
    - rewrite live_setExpr. destruct (get (p_live st) i); reflexivity.
    - rewrite live_index by exact H. unfold t_index, p_live. rewrite keys_view. reflexivity.
    - apply live_unindex, H.
    - apply live_again.
  Qed.
  Lemma call_stored c st : wf st -> s_filters (p_call st c) = s_filters st /\ s_sets (p_call st c) = s_sets st.
  Proof.
    intros H. destruct c as [[f|i| | |i e|d c|d]|i]; cbn [M_ptopic.p_call]; try (split; reflexivity).
    - unfold p_del. destruct (get _ _); split; reflexivity.
    - destruct (clears (keys (filters st)) st H) as (_ & _ & _ & _ & G5 & G6 & _). split; assumption.
    - unfold p_setExpr. destruct (get _ _); split; reflexivity.
    - pose proof (index_sbs d c (keys (filters st)) st) as (_ & _ & _ & _ & G5 & G6). split; assumption.
    - destruct (unindexes d (keys (filters st)) st H) as ((_ & _ & _ & _ & G5 & G6) & _). split; assumption.
    - unfold p_again. destruct (get _ _); split; reflexivity.
  Qed.

  (** ** Ends of transactions *)
  Lemma commit_sets extra st r :
    get (s_sets (p_commit extra st)) r =
    if mem r (s_sets st) || existsb (eqb r) (map o_set (vals (match replaced st with
                 | Some _ => filters st
                 | None => sfilter (fun i _ => mem i (sunion (dirty st) extra)) (filters st) end)))
    then Some (set_of (sets st) r) else None.
  Proof.
    unfold p_commit. cbn [s_sets]. rewrite get_mmap, get_merge by reflexivity.
    rewrite <- mem_set_of_list. unfold mem. destruct (get (s_sets st) r); [reflexivity|]. cbn [is_some orb].
    destruct (get (set_of_list _) r); reflexivity.
  Qed.
  Lemma get_commit_filters extra st i :
    get (s_filters (p_commit extra st)) i =
    match replaced st with
    | Some _ => get (filters st) i
    | None => if mem i (sunion (dirty st) extra) then get (filters st) i else get (s_filters st) i
    end.
  Proof. unfold p_commit. cbn [s_filters]. destruct (replaced st); [reflexivity|]. apply get_mix. Qed.
  Lemma commit_refs extra st r (P : Prop) :
    (forall i o, get (filters st) i = Some o -> o_set o = r -> P) ->
    existsb (eqb r) (map o_set (vals (match replaced st with
                 | Some _ => filters st
                 | None => sfilter (fun i _ => mem i (sunion (dirty st) extra)) (filters st) end))) = true -> P.
  Proof.
    intros H Hr. apply existsb_eqb_In, in_map_iff in Hr as [o [Ho Hin]]. apply vals_In in Hin as [i Hi].
    apply (H i o); [|exact Ho]. destruct (replaced st); [exact Hi|]. rewrite get_sfilter in Hi.
    destruct (get (filters st) i) as [o'|]; [|discriminate]. destruct (mem i _); [exact Hi|discriminate].
  Qed.
  Lemma commit_wf extra st : wf st -> wf (p_commit extra st).
  Proof.
    intros (own & H1 & H2 & H3 & H4). exists own. split; [exact H1|]. split; [|split].
    - intros i o. rewrite get_commit_filters. cbn [p_commit fresh]. destruct (replaced st); [apply H1|].
      destruct (mem i _); [apply H1|apply H2].
    - intros t d. discriminate.
    - intros r. unfold mem. rewrite commit_sets. cbn [p_commit fresh].
      destruct (mem r (s_sets st)) eqn:Em; [intros _; apply H4, Em|]. cbn [orb].
      destruct (existsb _ _) eqn:Ex; [|discriminate]. intros _.
      apply (commit_refs extra st r (r < fresh st)); [|exact Ex]. intros i o Hi <-. apply (H1 i o Hi).
  Qed.
  Lemma abort_wf extra st : wf st -> wf (p_abort extra st).
  Proof.
    intros (own & H1 & H2 & H3 & H4). exists own. unfold p_abort.
    destruct (replaced st) as [[t d]|] eqn:Er; cbn; (split; [|split; [exact H2|split; [discriminate|exact H4]]]).
    - apply okt_mix; [exact H2|]. apply (H3 t d eq_refl).
    - apply okt_mix; [exact H2|exact H1].
  Qed.
  Lemma evict_wf ks st : wf st -> wf (p_evict ks st).
  Proof.
    intros H. unfold p_evict. destruct (replaced st) eqn:Er; [exact H|]. destruct H as (own & H1 & H2 & H3 & H4).
    exists own. cbn. split; [apply okt_mix; assumption|auto].
  Qed.
  Lemma restart_wf st : wf st -> wf (p_restart st).
  Proof. intros (own & H1 & H2 & H3 & H4). exists own. cbn. split; [exact H2|split; [exact H2|split; [discriminate|exact H4]]]. Qed.
  Lemma step_wf st e : wf st -> wf (p_step st e).
  Proof.
    intros H. destruct e; cbn; [apply call_wf|apply commit_wf|apply abort_wf|apply evict_wf|apply restart_wf]; exact H.
  Qed.
  Lemma new_wf : wf p_new.
  Proof. exists (fun _ => None). cbn. split; [apply okt_empty|split; [apply okt_empty|split; [discriminate|]]]. intros r H. discriminate. Qed.
  Lemma run_wf evs : wf (p_run evs).
  Proof.
    unfold M_ptopic.p_run. generalize new_wf. generalize (@p_new I OI E). induction evs as [|e evs IH]; intros st H; [exact H|].
    cbn [fold_left]. apply IH, step_wf, H.
  Qed.
  Lemma run_snoc evs e : p_run (evs ++ [e]) = p_step (p_run evs) e.
  Proof. unfold M_ptopic.p_run. rewrite fold_left_app. reflexivity. Qed.
  Lemma ideal_snoc evs e : ideal eval (evs ++ [e]) = ideal_step eval (ideal eval evs) e.
  Proof. unfold ideal. rewrite fold_left_app. reflexivity. Qed.
  Lemma unsaved_snoc evs e : unsaved (evs ++ [e]) = unsaved_step (unsaved evs) e.
  Proof. unfold unsaved. rewrite fold_left_app. reflexivity. Qed.

  Lemma view_empty ss : view (empty : smap I fobj) ss = empty.
  Proof. apply smap_ext. intros j. rewrite get_view. reflexivity. Qed.

  (** ** What is in memory *)
  Lemma live_only evs : Forall (fun e => match e with ZCall _ | ZCommit _ => True | _ => False end) evs ->
    p_live (p_run evs) = fst (ideal eval evs).
  Proof.
    induction evs as [|e evs IH] using rev_ind; intros H; [apply view_empty|].
    apply Forall_app in H as [H He]. inversion He as [|? ? Hx _]; subst. rewrite run_snoc, ideal_snoc.
    pose proof (run_wf evs) as Hw. destruct e as [c|x|x|ks|]; try contradiction.
    - cbn [M_ptopic.p_step]. rewrite call_live by exact Hw. rewrite (IH H). destruct c; reflexivity.
    - cbn [ideal_step fst]. rewrite <- (IH H). reflexivity.
  Qed.

  (** ** Careful programs *)
  Definition agree (u : I -> bool) (t : smap I fobj) (d : sset I) (s : smap I fobj) : Prop :=
    forall k, mem k d = false -> get t k = get s k \/ (u k = true /\ mem k t = true /\ mem k s = true).
  Definition good st (lv sv : smap I filt) (u : I -> bool) : Prop :=
    wf st /\ p_live st = lv /\ p_saved st = sv /\
    (forall k o, get (s_filters st) k = Some o -> mem (o_set o) (s_sets st) = true) /\
    match replaced st with
    | None => agree u (filters st) (dirty st) (s_filters st)
    | Some (t, d) => agree (fun _ => false) t d (s_filters st)
    end.
  Lemma agree_clean t d s : agree (fun _ => false) t d s -> forall k, mem k d = false -> get t k = get s k.
  Proof. intros H k Hk. destruct (H k Hk) as [G|(G & _)]; [exact G|discriminate]. Qed.
  Lemma agree_mono (u u' : I -> bool) t d s : (forall k, u k = true -> u' k = true) -> agree u t d s -> agree u' t d s.
  Proof. intros Hu H k Hk. destruct (H k Hk) as [G|(G & G')]; [left; exact G|right; auto]. Qed.
  Lemma agree_store (u u' : I -> bool) t t' d s i :
    (forall k, eqb k i = false -> get t' k = get t k /\ (u k = true -> u' k = true)) ->
    agree u t d s -> agree u' t' (sadd i d) s.
  Proof.
    intros Hp H k Hk. rewrite mem_sadd in Hk. apply orb_false_iff in Hk as [Hk1 Hk2].
    destruct (Hp k Hk1) as [E1 E2]. destruct (H k Hk2) as [G|(G1 & G2 & G3)].
    - left. rewrite E1. exact G.
    - right. split; [apply E2, G1|split; [|exact G3]]. unfold mem. rewrite E1. exact G2.
  Qed.
  (** A call that keeps [filters] and [dirty] *)
  Lemma good_sets st st' lv sv lv' (u : I -> bool) : same_but_sets st st' -> good st lv sv u -> p_live st' = lv' -> good st' lv' sv u.
  Proof.
    intros Hs (G1 & G2 & G3 & G4 & G5) Hl. pose proof Hs as (H1 & H2 & H3 & H4 & H5 & H6).
    split; [eapply sbs_wf; eassumption|]. split; [exact Hl|]. unfold p_saved in *. rewrite H5, H6, H4, H1, H3.
    split; [exact G3|split; [exact G4|exact G5]].
  Qed.

  Lemma good_call st c lv sv (u : I -> bool) : good st lv sv u ->
    (c = PCall TClear -> forall i, mem i lv = true -> u i = false) ->
    good (p_call st c) (match c with PCall o => fst (t_step eval lv o) | PAgain _ => lv end) sv (unsaved_step u (ZCall c)).
  Proof.
    intros G Hc. pose proof G as (G1 & G2 & G3 & G4 & G5).
    pose proof (call_wf c st G1) as W. pose proof (call_live c st G1) as Lv. pose proof (call_stored c st G1) as [S1 S2].
    rewrite G2 in Lv. split; [exact W|]. split; [exact Lv|].
    split; [unfold p_saved; rewrite S1, S2; exact G3|].
    split; [rewrite S1, S2; exact G4|]. rewrite S1. clear W Lv S1 S2.
    destruct c as [[f|i| | |i e|d c|d]|i]; cbn [M_ptopic.p_call unsaved_step].
    - cbn [p_add new_set store replaced filters dirty]. destruct (replaced st) as [[t d]|]; [exact G5|].
      apply (agree_store u _ (filters st) _ _ _ (f_id f)); [|exact G5]. intros k Hk. rewrite get_put, Hk. split; auto.
    - unfold p_del. destruct (get (filters st) i) as [o|] eqn:Ei.
      + cbn [store replaced filters dirty]. destruct (replaced st) as [[t d]|]; [exact G5|].
        apply (agree_store u _ (filters st) _ _ _ i); [|exact G5]. intros k Hk. rewrite get_del, Hk. split; auto.
      + destruct (replaced st) as [[t d]|]; [exact G5|]. intros k Hk. destruct (G5 k Hk) as [A|(A1 & A2 & A3)]; [left; exact A|].
        right. split; [|split; assumption]. rewrite A1. destruct (eqb k i) eqn:Ek; [|reflexivity]. apply eqb_eq in Ek; subst.
        unfold mem in A2. rewrite Ei in A2. discriminate.
    - cbn [p_clear replaced]. destruct (replaced st) as [[t d]|]; [exact G5|]. intros k Hk.
      destruct (G5 k Hk) as [A|(A1 & A2 & A3)]; [left; exact A|]. exfalso.
      assert (Hm : mem k lv = true) by (rewrite <- G2; unfold p_live; rewrite mem_view; exact A2).
      rewrite (Hc eq_refl k Hm) in A1. discriminate.
    - destruct (clears (keys (filters st)) st G1) as (_ & M & D & R & _). unfold p_clearFilters. rewrite R, D.
      destruct (replaced st) as [[t d]|]; [exact G5|]. intros k Hk.
      destruct (mem k (filters st)) eqn:Em.
      + right. split; [reflexivity|]. split; [rewrite M; exact Em|].
        destruct (G5 k Hk) as [A|(_ & _ & A3)]; [|exact A3]. unfold mem in *. rewrite <- A. exact Em.
      + left. destruct (G5 k Hk) as [A|(_ & A2 & _)]; [|congruence]. rewrite <- A.
        pose proof (M k) as Mk. rewrite Em in Mk. apply mem_false in Em, Mk. congruence.
    - unfold p_setExpr. destruct (get (filters st) i) as [o|] eqn:Ei.
      + cbn [set_filters replaced filters dirty]. destruct (replaced st) as [[t d]|]; [exact G5|]. intros k Hk.
        unfold mem. rewrite get_put. destruct (eqb k i) eqn:Ek.
        * apply eqb_eq in Ek; subst k. right. split; [reflexivity|]. split; [reflexivity|].
          destruct (G5 i Hk) as [A|(_ & _ & A3)]; [|exact A3]. rewrite <- A, Ei. reflexivity.
        * destruct (G5 k Hk) as [A|(A1 & A2 & A3)]; [left; exact A|right]. split; [rewrite A1; reflexivity|split; assumption].
      + destruct (replaced st) as [[t d]|]; [exact G5|]. eapply agree_mono; [|exact G5]. intros k ->. apply orb_true_r.
    - destruct (index_sbs d c (keys (filters st)) st) as (H1 & _ & H3 & H4 & _). rewrite H1, H3, H4. exact G5.
    - destruct (unindexes d (keys (filters st)) st G1) as ((H1 & _ & H3 & H4 & _) & _). unfold p_unindex. rewrite H1, H3, H4. exact G5.
    - pose proof (again_filters i st) as Hf. unfold p_again in *. destruct (get (filters st) i) as [o|] eqn:Ei.
      + cbn [store replaced filters dirty] in *. destruct (replaced st) as [[t d]|]; [exact G5|].
        apply (agree_store u _ (filters st) _ _ _ i); [|exact G5]. intros k Hk. rewrite Hf. rewrite Hk. split; auto.
      + destruct (replaced st) as [[t d]|]; [exact G5|]. intros k Hk. destruct (G5 k Hk) as [A|(A1 & A2 & A3)]; [left; exact A|].
        right. split; [|split; assumption]. rewrite A1. destruct (eqb k i) eqn:Ek; [|reflexivity]. apply eqb_eq in Ek; subst.
        unfold mem in A2. rewrite Ei in A2. discriminate.
  Qed.

  Lemma good_clean st lv sv (u : I -> bool) : good st lv sv u -> replaced st = None ->
    (forall i, mem i lv = true -> u i = false) ->
    forall k, mem k (dirty st) = false -> get (filters st) k = get (s_filters st) k.
  Proof.
    intros (_ & G2 & _ & _ & G5) Hr Hu k Hk. rewrite Hr in G5. destruct (G5 k Hk) as [A|(A1 & A2 & A3)]; [exact A|].
    assert (Hm : mem k lv = true) by (rewrite <- G2; unfold p_live; rewrite mem_view; exact A2).
    rewrite (Hu k Hm) in A1. discriminate.
  Qed.
  Lemma view_ext fs ss ss' : (forall k o, get fs k = Some o -> set_of ss (o_set o) = set_of ss' (o_set o)) -> view fs ss = view fs ss'.
  Proof.
    intros H. apply smap_ext. intros k. rewrite !get_view. destruct (get fs k) as [o|] eqn:Ek; [|reflexivity].
    unfold filt_of. rewrite (H k o Ek). reflexivity.
  Qed.

  Lemma good_commit st extra lv sv (u : I -> bool) : good st lv sv u -> (forall i, mem i lv = true -> u i = false) ->
    good (p_commit extra st) lv lv u.
  Proof.
    intros G Hu. pose proof G as (G1 & G2 & G3 & G4 & G5).
    assert (Hf : s_filters (p_commit extra st) = filters st).
    { apply smap_ext. intros k. rewrite get_commit_filters. destruct (replaced st) eqn:Er; [reflexivity|].
      destruct (mem k (sunion (dirty st) extra)) eqn:Em; [reflexivity|]. symmetry.
      apply (good_clean st lv sv u G Er Hu). rewrite mem_sunion in Em. apply orb_false_iff in Em. apply Em. }
    assert (Hs : forall k o, get (filters st) k = Some o -> get (s_sets (p_commit extra st)) (o_set o) = Some (set_of (sets st) (o_set o))).
    { intros k o Hk. rewrite commit_sets.
      destruct (mem (o_set o) (s_sets st)) eqn:Em; [reflexivity|]. cbn [orb].
      replace (existsb _ _) with true; [reflexivity|]. symmetry. apply existsb_eqb_In, in_map, vals_In. exists k.
      destruct (replaced st) eqn:Er; [exact Hk|]. rewrite get_sfilter, Hk.
      destruct (mem k (sunion (dirty st) extra)) eqn:Ek; [reflexivity|]. exfalso.
      rewrite mem_sunion in Ek. apply orb_false_iff in Ek as [Ek _].
      rewrite (good_clean st lv sv u G Er Hu k Ek) in Hk. rewrite (G4 _ _ Hk) in Em. discriminate. }
    split; [apply commit_wf, G1|]. split; [exact G2|]. split; [|split].
    - unfold p_saved. rewrite Hf, <- G2. apply view_ext. intros k o Hk. unfold set_of at 1. rewrite (Hs k o Hk). reflexivity.
    - rewrite Hf. intros k o Hk. unfold mem. rewrite (Hs k o Hk). reflexivity.
    - rewrite Hf. cbn [p_commit replaced filters dirty]. intros k _. left. reflexivity.
  Qed.
  Lemma good_abort st extra lv sv (u : I -> bool) : good st lv sv u -> (forall i, mem i lv = true -> u i = false) ->
    good (p_abort extra st) sv sv (fun _ => false).
  Proof.
    intros G Hu. pose proof G as (G1 & G2 & G3 & G4 & G5).
    assert (Hf : filters (p_abort extra st) = s_filters st).
    { unfold p_abort. destruct (replaced st) as [[t d]|] eqn:Er; cbn [filters]; apply smap_ext; intros k; rewrite get_mix;
        destruct (mem k (sunion _ extra)) eqn:Em; try reflexivity; rewrite mem_sunion in Em; apply orb_false_iff in Em as [Em _].
      - apply (agree_clean t d _ G5 k Em).
      - apply (good_clean st lv sv u G Er Hu k Em). }
    assert (F : s_filters (p_abort extra st) = s_filters st /\ s_sets (p_abort extra st) = s_sets st /\
                replaced (p_abort extra st) = None /\ dirty (p_abort extra st) = empty /\
                sets (p_abort extra st) = merge (fun x y => match y with Some s => Some s | None => x end) (sets st) (s_sets st)).
    { unfold p_abort. destruct (replaced st) as [[t d]|]; repeat split; reflexivity. }
    destruct F as (F1 & F2 & F3 & F4 & F5).
    split; [apply abort_wf, G1|]. split; [|split; [|split]].
    - rewrite <- G3. unfold p_live, p_saved. rewrite Hf, F5. apply view_ext. intros k o Hk. specialize (G4 k o Hk).
      unfold set_of. rewrite get_merge by reflexivity. apply mem_get in G4 as [s ->]. reflexivity.
    - unfold p_saved. rewrite F1, F2. exact G3.
    - rewrite F1, F2. exact G4.
    - rewrite F3, Hf, F1. intros k _. left. reflexivity.
  Qed.
  Lemma good_evict st ks lv sv (u : I -> bool) : good st lv sv u -> (forall i, mem i lv = true -> u i = false) ->
    good (p_evict ks st) lv sv u.
  Proof.
    intros G Hu. unfold p_evict. destruct (replaced st) eqn:Er; [exact G|].
    replace (set_filters _ st) with st; [exact G|].
    replace (mix (mdiff ks (dirty st)) (s_filters st) (filters st)) with (filters st); [destruct st; reflexivity|].
    apply smap_ext. intros k. rewrite get_mix. destruct (mem k (mdiff ks (dirty st))) eqn:Em; [|reflexivity].
    rewrite mem_mdiff in Em. apply andb_true_iff in Em as [_ Em]. apply negb_true_iff in Em.
    apply (good_clean st lv sv u G Er Hu k Em).
  Qed.
  Lemma good_restart st lv sv (u : I -> bool) : good st lv sv u -> good (p_restart st) sv sv (fun _ => false).
  Proof.
    intros (G1 & G2 & G3 & G4 & G5). split; [apply restart_wf, G1|]. split; [exact G3|]. split; [exact G3|].
    split; [exact G4|]. cbn. intros k _. left; reflexivity.
  Qed.

  Lemma careful_prefix evs1 evs2 : careful eval (evs1 ++ evs2) -> careful eval evs1.
  Proof. intros H a e b -> Hb. apply (H a e (b ++ evs2)); [|exact Hb]. rewrite <- app_assoc. reflexivity. Qed.
  Lemma run_good evs : careful eval evs -> good (p_run evs) (fst (ideal eval evs)) (snd (ideal eval evs)) (unsaved evs).
  Proof.
    induction evs as [|e evs IH] using rev_ind; intros H.
    - split; [apply new_wf|]. split; [apply view_empty|]. split; [apply view_empty|]. split; [intros k o Hk; discriminate|].
      cbn. intros k _. left; reflexivity.
    - specialize (IH (careful_prefix _ _ H)). specialize (H evs e [] eq_refl).
      rewrite run_snoc, ideal_snoc, unsaved_snoc.
      destruct e as [c|x|x|ks|]; cbn [M_ptopic.p_step ideal_step fst snd boundary] in *.
      + pose proof (good_call (p_run evs) c _ _ _ IH) as G. destruct c as [o|i]; cbn [fst snd] in *.
        * apply G. intros [= ->]. exact (H Logic.I).
        * apply G. discriminate.
      + apply (good_commit _ _ _ _ _ IH (H Logic.I)).
      + apply (good_abort _ _ _ _ _ IH (H Logic.I)).
      + apply (good_evict _ _ _ _ _ IH (H Logic.I)).
      + apply (good_restart _ _ _ _ IH).
  Qed.
  Lemma faithful evs : careful eval evs ->
    p_live (p_run evs) = fst (ideal eval evs) /\ p_saved (p_run evs) = snd (ideal eval evs).
  Proof. intros H. destruct (run_good evs H) as (_ & G2 & G3 & _). split; assumption. Qed.

  (** ** Changes of the attributes of filters are lost *)
  Definition detached st (sf : smap I fobj) (ss : smap Z (sset Z)) : Prop :=
    wf st /\ s_filters st = sf /\ s_sets st = ss /\ dirty st = empty /\ replaced st = None /\
    (forall r, mem r ss = true -> set_of (sets st) r = set_of ss r) /\
    (forall k o, get (filters st) k = Some o -> mem (o_set o) ss = false).

  Lemma mem_registered st r : wf st -> mem (fresh st) (s_sets st) = true -> r = fresh st -> False.
  Proof. intros (own & _ & _ & _ & H) Hm _. specialize (H _ Hm). lia. Qed.
  Lemma clear_one_sets st i r : wf st -> mem r (s_sets st) = true -> set_of (sets (p_clear_one st i)) r = set_of (sets st) r.
  Proof.
    intros (own & _ & _ & _ & H) Hm. unfold p_clear_one. destruct (get (filters st) i); [|reflexivity].
    cbn [new_set set_filters sets]. rewrite set_of_put. replace (eqb r (fresh st)) with false; [reflexivity|].
    symmetry. apply eqb_neq. specialize (H r Hm). lia.
  Qed.
  Lemma detach l st ss : wf st -> s_sets st = ss -> (forall r, mem r ss = true -> set_of (sets st) r = set_of ss r) ->
    let st' := fold_left p_clear_one l st in
    (forall r, mem r ss = true -> set_of (sets st') r = set_of ss r) /\
    (forall k o, get (filters st') k = Some o -> mem (o_set o) ss = false \/ (~ In k l /\ get (filters st) k = Some o)).
  Proof.
    revert st; induction l as [|i l IH]; intros st H Hs Hr; cbn [fold_left].
    - split; [exact Hr|]. intros k o Hk. right. split; [intros []|exact Hk].
    - destruct (IH (p_clear_one st i)) as [A B].
      + apply wf_clear_one, H.
      + unfold p_clear_one. destruct (get (filters st) i); exact Hs.
      + intros r Hm. rewrite clear_one_sets; [apply Hr, Hm|exact H|rewrite Hs; exact Hm].
      + split; [exact A|]. intros k o Hk. destruct (B k o Hk) as [G|[G1 G2]]; [left; exact G|].
        unfold p_clear_one in G2. destruct (get (filters st) i) as [o'|] eqn:Ei.
        * cbn [new_set set_filters filters] in G2. rewrite get_put in G2. destruct (eqb k i) eqn:Ek.
          -- left. injection G2 as <-. cbn [o_set]. destruct (mem (fresh st) ss) eqn:Em; [|reflexivity].
             exfalso. rewrite <- Hs in Em. eapply mem_registered; [exact H|exact Em|reflexivity].
          -- right. split; [|exact G2]. intros [->|Hin]; [rewrite eqb_refl in Ek; discriminate|contradiction].
        * right. split; [|exact G2]. intros [->|Hin]; [rewrite Ei in G2; discriminate|contradiction].
  Qed.
  Lemma detached_clearFilters st sf ss :
    wf st -> s_filters st = sf -> s_sets st = ss -> dirty st = empty -> replaced st = None ->
    (forall r, mem r ss = true -> set_of (sets st) r = set_of ss r) -> detached (p_clearFilters st) sf ss.
  Proof.
    intros H H1 H2 H3 H4 H5. destruct (clears (keys (filters st)) st H) as (C1 & C2 & C3 & C4 & C5 & C6 & _).
    destruct (detach (keys (filters st)) st ss H H2 H5) as [D1 D2].
    unfold p_clearFilters. split; [exact C1|]. split; [congruence|]. split; [congruence|]. split; [congruence|].
    split; [congruence|]. split; [exact D1|]. intros k o Hk. destruct (D2 k o Hk) as [G|[G1 G2]]; [exact G|].
    exfalso. apply G1, keys_In. eauto.
  Qed.
  Lemma set_detached st sf ss o s k : detached st sf ss -> get (filters st) k = Some o ->
    detached (set_sets (put (o_set o) s (sets st)) st) sf ss.
  Proof.
    intros (H & H1 & H2 & H3 & H4 & H5 & H6) Hk. split; [eapply sbs_wf; [apply sbs_sets|exact H]|].
    split; [exact H1|]. split; [exact H2|]. split; [exact H3|]. split; [exact H4|]. split; [|exact H6].
    intros r Hr. cbn [set_sets sets]. rewrite set_of_put. destruct (eqb r (o_set o)) eqn:Ex; [|apply H5, Hr].
    apply eqb_eq in Ex; subst r. rewrite (H6 k o Hk) in Hr. discriminate.
  Qed.
  Lemma index_detached d c ids st sf ss : detached st sf ss -> detached (p_index eval d c ids st) sf ss.
  Proof.
    revert st; induction ids as [|i ids IH]; intros st H; cbn [p_index]; [exact H|].
    destruct (get (filters st) i) as [o|] eqn:Ei; [|apply IH, H]. destruct (o_python o); [|exact H].
    destruct (eval _ _ _); apply IH; [|exact H|exact H]. eapply set_detached; eassumption.
  Qed.
  Lemma unindex_detached d l st sf ss : detached st sf ss -> detached (fold_left (p_unindex_one d) l st) sf ss.
  Proof.
    revert st; induction l as [|i l IH]; intros st H; cbn [fold_left]; [exact H|]. apply IH. unfold p_unindex_one.
    destruct (get (filters st) i) as [o|] eqn:Ei; [|exact H]. eapply set_detached; eassumption.
  Qed.
  Lemma commit_detached st sf ss : detached st sf ss -> detached (p_commit empty st) sf ss.
  Proof.
    intros (H & H1 & H2 & H3 & H4 & H5 & H6).
    assert (E1 : s_filters (p_commit empty st) = sf).
    { apply smap_ext. intros k. rewrite get_commit_filters, H4, H3, H1. reflexivity. }
    assert (E2 : s_sets (p_commit empty st) = ss).
    { apply smap_ext. intros r. rewrite commit_sets, H4, H3, H2.
      assert (Hn : existsb (eqb r) (map o_set (vals (sfilter (fun i _ => mem i (sunion empty empty)) (filters st)))) = false).
      { destruct (existsb _ _) eqn:Ex; [|reflexivity]. exfalso. apply existsb_eqb_In, in_map_iff in Ex as [o [_ Hin]].
        apply vals_In in Hin as [i Hi]. rewrite get_sfilter in Hi. destruct (get (filters st) i); discriminate. }
      rewrite Hn, orb_false_r. destruct (mem r ss) eqn:Em; [|apply mem_false in Em; rewrite Em; reflexivity].
      rewrite (H5 r Em). unfold set_of. apply mem_get in Em as [s ->]. reflexivity. }
    split; [apply commit_wf, H|]. split; [exact E1|]. split; [exact E2|]. split; [reflexivity|]. split; [reflexivity|].
    split; [exact H5|exact H6].
  Qed.
  Lemma quiet_detached st sf ss e : quiet e -> detached st sf ss -> detached (p_step st e) sf ss.
  Proof.
    intros Hq H. destruct e as [[[f|i| | |i e|d c|d]|i]|x|x|ks|]; cbn in Hq; try contradiction; cbn [M_ptopic.p_step M_ptopic.p_call].
    - destruct H as (H & H1 & H2 & H3 & H4 & H5 & H6). apply detached_clearFilters; assumption.
    - unfold p_setExpr. destruct (get (filters st) i) as [o|] eqn:Ei; [|exact H].
      pose proof (wf_setExpr i e st (proj1 H)) as Hw. unfold p_setExpr in Hw. rewrite Ei in Hw.
      destruct H as (H & H1 & H2 & H3 & H4 & H5 & H6). split; [exact Hw|]. split; [exact H1|]. split; [exact H2|].
      split; [exact H3|]. split; [exact H4|]. split; [exact H5|]. intros k o'. cbn [set_filters filters]. rewrite get_put.
      destruct (eqb k i); [|apply H6]. intros [= <-]. exact (H6 i o Ei).
    - apply index_detached, H.
    - apply unindex_detached, H.
    - subst x. apply commit_detached, H.
  Qed.

  Lemma lost evs x evs' : Forall quiet evs' ->
    p_saved (p_run (evs ++ ZCommit x :: ZCall (PCall TClearFilters) :: evs')) = p_saved (p_run (evs ++ [ZCommit x])).
  Proof.
    intros Hq. set (st := p_run (evs ++ [ZCommit x])).
    assert (H0 : detached (p_run (evs ++ [ZCommit x; ZCall (PCall TClearFilters)])) (s_filters st) (s_sets st)).
    { replace (evs ++ [ZCommit x; ZCall (PCall TClearFilters)]) with ((evs ++ [ZCommit x]) ++ [ZCall (PCall TClearFilters)])
        by (rewrite <- app_assoc; reflexivity).
      rewrite run_snoc. fold st. cbn [M_ptopic.p_step M_ptopic.p_call].
      assert (Est : st = p_commit x (p_run evs)) by (unfold st; rewrite run_snoc; reflexivity).
      apply detached_clearFilters; try reflexivity.
      - apply run_wf.
      - rewrite Est. reflexivity.
      - rewrite Est. reflexivity.
      - intros r Hr. rewrite Est in *. unfold mem in Hr. unfold set_of at 2. rewrite commit_sets in *. cbn [p_commit sets].
        destruct (_ || _); [reflexivity|discriminate]. }
    assert (H1 : detached (p_run (evs ++ ZCommit x :: ZCall (PCall TClearFilters) :: evs')) (s_filters st) (s_sets st)).
    { replace (evs ++ ZCommit x :: ZCall (PCall TClearFilters) :: evs')
        with ((evs ++ [ZCommit x; ZCall (PCall TClearFilters)]) ++ evs') by (rewrite <- app_assoc; reflexivity).
      unfold M_ptopic.p_run in *. rewrite fold_left_app. revert H0. generalize (fold_left p_step (evs ++ [ZCommit x; ZCall (PCall TClearFilters)]) p_new).
      clear - Hq. induction Hq as [|e evs' He Hq IH]; intros s H; [exact H|]. cbn [fold_left]. apply IH, quiet_detached; assumption. }
    destruct H1 as (_ & E1 & E2 & _). unfold p_saved. rewrite E1, E2. reflexivity.
  Qed.

  (** ** Programs that never change attributes of filters *)
  Lemma plain_unsaved evs :
    Forall (fun e => match e with ZCall (PCall TClearFilters) | ZCall (PCall (TSetExpr _ _)) => False | _ => True end) evs ->
    forall i, unsaved evs i = false.
  Proof.
    induction evs as [|e evs IH] using rev_ind; intros H i; [reflexivity|].
    apply Forall_app in H as [H He]. inversion He as [|? ? Hx _]; subst. rewrite unsaved_snoc. specialize (IH H i).
    destruct e as [[[f|j| | |j e|d c|d]|j]|x|x|ks|]; cbn [unsaved_step]; try contradiction; rewrite ?IH, ?andb_false_r; reflexivity.
  Qed.
  Lemma plain_faithful evs :
    Forall (fun e => match e with ZCall (PCall TClearFilters) | ZCall (PCall (TSetExpr _ _)) => False | _ => True end) evs ->
    p_live (p_run evs) = fst (ideal eval evs) /\ p_saved (p_run evs) = snd (ideal eval evs).
  Proof.
    intros H. apply faithful. intros e1 e e2 -> _ i _. apply plain_unsaved. apply Forall_app in H. apply H.
  Qed.
End L.
