(** * Lemmas about the keyword index *)
From Verif Require Import S_keyword M_keyword SMap Ord.

Section Sets.
  Lemma len_le_total (a b : sset Z) : len_le a b = true \/ len_le b a = true.
  Proof. unfold len_le. lia. Qed.

  Lemma and_loop_some r sets k :
    match and_loop (Some r) sets with Some s => mem k s | None => false end
    = mem k r && forallb (mem k) sets.
  Proof.
    revert r; induction sets as [|s sets IH]; intros r; cbn [and_loop forallb]; [rewrite andb_true_r; reflexivity|].
    destruct (is_empty (sinter r s)) eqn:E.
    - rewrite (proj1 (is_empty_mem _) E). pose proof (proj1 (is_empty_mem _) E k) as H. rewrite mem_sinter in H.
      rewrite andb_assoc, H. reflexivity.
    - rewrite IH, mem_sinter, andb_assoc. reflexivity.
  Qed.
  Lemma and_loop_none sets k :
    match and_loop None sets with Some s => mem k s | None => false end
    = match sets with [] => false | _ => forallb (mem k) sets end.
  Proof.
    destruct sets as [|s sets]; [reflexivity|]. cbn [and_loop forallb].
    destruct (is_empty s) eqn:E; [|apply and_loop_some].
    rewrite (proj1 (is_empty_mem _) E). reflexivity.
  Qed.
  Lemma forallb_perm {A} (f : A -> bool) l l' : Permutation l l' -> forallb f l = forallb f l'.
  Proof. induction 1; cbn; try congruence. rewrite !andb_assoc, (andb_comm (f y)). reflexivity. Qed.

  Lemma combine_and sets : exists s, combine_sets OpAnd sets = Ok s /\
    forall k, mem k s = match sets with [] => false | _ => forallb (mem k) sets end.
  Proof.
    eexists; split; [reflexivity|]. intros k.
    pose proof (and_loop_none (isort len_le sets) k) as H.
    rewrite (forallb_perm _ _ _ (isort_perm len_le sets)) in H.
    assert (Hn : match isort len_le sets with [] => false | _ => forallb (mem k) sets end
               = match sets with [] => false | _ => forallb (mem k) sets end).
    { pose proof (Permutation_length (isort_perm len_le sets)) as Hl.
      destruct (isort len_le sets), sets; try discriminate; reflexivity. }
    apply (fun E => eq_trans E Hn) in H. etransitivity; [|exact H]. clear. destruct (and_loop None (isort len_le sets)) as [s|]; [|reflexivity].
    destruct (is_empty s) eqn:E; [|reflexivity]. rewrite (proj1 (is_empty_mem _) E). reflexivity.
  Qed.
  Lemma combine_or sets : exists s, combine_sets OpOr sets = Ok s /\ forall k, mem k s = existsb (mem k) sets.
  Proof.
    eexists; split; [reflexivity|]. intros k. cbn. destruct (is_empty (multiunion sets)) eqn:E.
    - rewrite <- mem_multiunion, (proj1 (is_empty_mem _) E). reflexivity.
    - apply mem_multiunion.
  Qed.
End Sets.

Section L.
  Context {W : Type} `{OW : Ord W}.
  Variable normalize : list W -> list W.
  Notation kop := (kop W).
  Notation kstate := (kstate W).
  Implicit Types (m : smap Z (sset W)) (st : kstate) (fwd : smap W (bool * sset Z)) (w : W) (d : Z).

  Definition docs_kw m w : sset Z := mmap (fun _ _ => tt) (sfilter (fun _ kw => mem w kw) m).
  Lemma mem_docs_kw m w d : mem d (docs_kw m w) = match get m d with Some kw => mem w kw | None => false end.
  Proof.
    unfold mem at 1, docs_kw. rewrite get_mmap, get_sfilter. destruct (get m d) as [kw|]; [|reflexivity].
    destruct (mem w kw); reflexivity.
  Qed.
  (** The forward index without representation flags. *)
  Definition postings fwd w : sset Z := match get fwd w with Some p => snd p | None => empty end.
  Definition no_empty fwd : Prop := forall w p, get fwd w = Some p -> is_empty (snd p) = false.

  Definition kinv st m : Prop :=
    krev st = m /\ knum st = Zsize m /\ no_empty (kfwd st) /\
    (forall w, postings (kfwd st) w = docs_kw m w) /\
    (forall d kw, get m d = Some kw -> is_empty kw = false).

  (** ** Forward index primitives *)
  Lemma insert_word_spec thr d fwd w w' :
    postings (insert_word thr d fwd w) w' = if eqb w' w then sadd d (postings fwd w') else postings fwd w'.
  Proof.
    unfold insert_word, postings. destruct (get fwd w) as [[tr s]|] eqn:E.
    - destruct (negb tr && (Zsize (sadd d s) >=? thr)); rewrite get_put; destruct (eqb w' w) eqn:Ew; try reflexivity;
        apply eqb_eq in Ew; subst; rewrite E; reflexivity.
    - destruct (negb false && (Zsize (sadd d empty) >=? thr)); rewrite get_put; destruct (eqb w' w) eqn:Ew; try reflexivity;
        apply eqb_eq in Ew; subst; rewrite E; reflexivity.
  Qed.
  Lemma sadd_nonempty d (s : sset Z) : is_empty (sadd d s) = false.
  Proof.
    destruct (is_empty (sadd d s)) eqn:E; [|reflexivity].
    pose proof (proj1 (is_empty_mem _) E d) as H. rewrite mem_sadd, eqb_refl in H. discriminate.
  Qed.
  Lemma insert_word_ne thr d fwd w : no_empty fwd -> no_empty (insert_word thr d fwd w).
  Proof.
    intros H w' p. unfold insert_word. destruct (match get fwd w with None => (false, empty) | Some p => p end) as [tr s].
    destruct (negb tr && (Zsize (sadd d s) >=? thr)); rewrite get_put; destruct (eqb w' w);
      try apply H; intros [= <-]; apply sadd_nonempty.
  Qed.
  Lemma insert_forward_spec thr d words fwd w :
    postings (insert_forward thr d words fwd) w = if mem w words then sadd d (postings fwd w) else postings fwd w.
  Proof.
    unfold insert_forward. rewrite <- (set_of_list_selems words) at 2. rewrite mem_set_of_list.
    generalize (selems words). intros l. revert fwd; induction l as [|x l IH]; intros fwd; cbn; [reflexivity|].
    rewrite IH, insert_word_spec. destruct (eqb w x); cbn; [|reflexivity].
    destruct (existsb (eqb w) l); [|reflexivity].
    apply sset_ext. intros k. rewrite !mem_sadd. destruct (eqb k d); reflexivity.
  Qed.
  Lemma insert_forward_ne thr d words fwd : no_empty fwd -> no_empty (insert_forward thr d words fwd).
  Proof.
    unfold insert_forward. generalize (selems words). intros l. revert fwd; induction l as [|x l IH]; intros fwd H; cbn; [exact H|].
    apply IH, insert_word_ne, H.
  Qed.

  Lemma remove_words_spec d ws fwd : NoDup ws -> (forall w, In w ws -> mem d (postings fwd w) = true) -> no_empty fwd ->
    exists fwd', remove_words d ws fwd = (fwd', Ok tt) /\ no_empty fwd' /\
      forall w, postings fwd' w = if existsb (eqb w) ws then srem d (postings fwd w) else postings fwd w.
  Proof.
    revert fwd; induction ws as [|x ws IH]; intros fwd Hnd Hin Hne; cbn [remove_words existsb].
    - exists fwd. splits; auto.
    - inversion Hnd as [|? ? Hnx Hnd']; subst.
      pose proof (Hin x (or_introl eq_refl)) as Hx. unfold postings in Hx.
      destruct (get fwd x) as [[tr s]|] eqn:E; [|discriminate]. cbn [snd] in Hx. rewrite Hx.
      set (fwd1 := if is_empty (srem d s) then del x fwd else put x (tr, srem d s) fwd).
      assert (H1 : forall w, postings fwd1 w = if eqb w x then srem d (postings fwd w) else postings fwd w).
      { intros w. unfold fwd1, postings. destruct (is_empty (srem d s)) eqn:Es.
        - rewrite get_del. destruct (eqb w x) eqn:Ew; [|reflexivity]. apply eqb_eq in Ew; subst. rewrite E. cbn [snd].
          apply is_empty_spec in Es. symmetry; exact Es.
        - rewrite get_put. destruct (eqb w x) eqn:Ew; [|reflexivity]. apply eqb_eq in Ew; subst. rewrite E. reflexivity. }
      destruct (IH fwd1 Hnd') as (fwd' & Hr & Hne' & Hp).
      + intros w Hw. rewrite H1. destruct (eqb w x) eqn:Ew.
        * apply eqb_eq in Ew; subst. contradiction.
        * apply Hin; right; exact Hw.
      + intros w p. unfold fwd1. destruct (is_empty (srem d s)) eqn:Es.
        * rewrite get_del. destruct (eqb w x); [discriminate|]. apply Hne.
        * rewrite get_put. destruct (eqb w x); [intros [= <-]; exact Es|]. apply Hne.
      + exists fwd'. splits; [exact Hr|exact Hne'|]. intros w. rewrite Hp, H1.
        destruct (eqb w x) eqn:Ew; [|reflexivity]. cbn. apply eqb_eq in Ew; subst.
        destruct (existsb (eqb x) ws) eqn:Ex; [|reflexivity]. apply existsb_eqb_In in Ex. contradiction.
  Qed.

  (** ** Steps *)
  Lemma kinv_new : kinv k_new empty.
  Proof.
    unfold kinv, k_new; cbn [krev knum kfwd]. splits; try reflexivity.
    - intros w p. rewrite get_empty. discriminate.
    - intros w. apply sset_ext. intros k. rewrite mem_docs_kw, get_empty. reflexivity.
    - intros d kw. rewrite get_empty. discriminate.
  Qed.
  Lemma kinv_clear st : kinv (k_clear st) empty.
  Proof.
    unfold kinv, k_clear; cbn [krev knum kfwd]. splits; try reflexivity.
    - intros w p. rewrite get_empty. discriminate.
    - intros w. apply sset_ext. intros k. rewrite mem_docs_kw, get_empty. reflexivity.
    - intros d kw. rewrite get_empty. discriminate.
  Qed.

  Lemma docs_kw_del m d w : docs_kw (del d m) w = srem d (docs_kw m w).
  Proof.
    apply sset_ext. intros k. rewrite mem_srem, !mem_docs_kw, get_del. destruct (eqb k d); reflexivity.
  Qed.
  Lemma docs_kw_put m d kw w :
    docs_kw (put d kw m) w = if mem w kw then sadd d (docs_kw m w) else srem d (docs_kw m w).
  Proof.
    apply sset_ext. intros k. rewrite mem_docs_kw, get_put. destruct (mem w kw) eqn:E.
    - rewrite mem_sadd, mem_docs_kw. destruct (eqb k d); [exact E|reflexivity].
    - rewrite mem_srem, mem_docs_kw. destruct (eqb k d); [exact E|reflexivity].
  Qed.

  Lemma k_unindex_inv d st m : kinv st m -> kinv (k_unindex d st) (del d m).
  Proof.
    intros (H1 & H2 & H3 & H4 & H5). unfold k_unindex. rewrite H1.
    destruct (get m d) as [kw|] eqn:E.
    2:{ rewrite del_absent by exact E. unfold kinv; auto. }
    destruct (remove_words_spec d (selems kw) (kfwd st)) as (fwd' & -> & Hne & Hp).
    - apply keys_NoDup.
    - intros w Hw. apply selems_In in Hw. rewrite H4, mem_docs_kw, E. exact Hw.
    - exact H3.
    - unfold kinv; cbn [krev knum kfwd]. splits.
      + reflexivity.
      + rewrite (Zsize_del _ _ _ E), H2. reflexivity.
      + exact Hne.
      + intros w. rewrite Hp, docs_kw_del, <- mem_set_of_list, set_of_list_selems, H4.
        destruct (mem w kw) eqn:Ew; [reflexivity|]. apply sset_ext. intros k. rewrite mem_srem, mem_docs_kw.
        destruct (eqb k d) eqn:Ek; [|reflexivity]. apply eqb_eq in Ek; subst. rewrite E. exact Ew.
      + intros d' kw' Hd'. rewrite get_del in Hd'. destruct (eqb d' d); [discriminate|]. eapply H5; exact Hd'.
  Qed.

  Lemma set_of_list_nonempty (l : list W) : l <> [] -> is_empty (set_of_list l) = false.
  Proof.
    destruct l as [|x l]; [contradiction|]. intros _. destruct (is_empty (set_of_list (x :: l))) eqn:E; [|reflexivity].
    pose proof (proj1 (is_empty_mem _) E x) as H.
    rewrite (proj2 (mem_set_of_list_In (x :: l) x) (or_introl eq_refl)) in H. discriminate.
  Qed.

  Lemma k_index_inv d seq st m : kinv st m -> op_normal normalize (KIndex d seq) ->
    kinv (fst (k_index normalize d seq st)) (kw_step normalize m (KIndex d seq)) /\
    snd (k_index normalize d seq st) = match seq with SeqStr => Raise TypeError | _ => Ok tt end.
  Proof.
    intros Hi Hn. pose proof Hi as (H1 & H2 & H3 & H4 & H5). destruct seq as [|l]; cbn [k_index kw_step fst snd].
    { auto. }
    destruct l as [|x l].
    { rewrite H1. destruct (get m d) as [kw|] eqn:E.
      - rewrite (H5 _ _ E). cbn [fst snd]. split; [apply k_unindex_inv, Hi|reflexivity].
      - cbn [fst snd]. rewrite del_absent by exact E. auto. }
    cbn [op_normal] in Hn. assert (Hnn : normalize (x :: l) <> []) by (apply Hn; discriminate).
    set (nk := set_of_list (normalize (x :: l))) in *.
    assert (Hne : is_empty nk = false) by (apply set_of_list_nonempty, Hnn). clearbody nk. clear Hn Hnn x l.
    rewrite H1. destruct (get m d) as [old|] eqn:E.
    - destruct (remove_words_spec d (selems (mdiff old nk)) (kfwd st)) as (fwd' & -> & Hne' & Hp).
      + apply keys_NoDup.
      + intros w Hw. apply selems_In in Hw. rewrite mem_mdiff, andb_true_iff in Hw.
        rewrite H4, mem_docs_kw, E. apply Hw.
      + exact H3.
      + cbn [fst snd]. split; [|reflexivity]. unfold kinv; cbn [krev knum kfwd]. splits.
        * unfold insert_reverse. rewrite Hne. reflexivity.
        * rewrite H2. symmetry. eapply Zsize_put_old; exact E.
        * apply insert_forward_ne, Hne'.
        * intros w. rewrite insert_forward_spec, Hp, <- mem_set_of_list, set_of_list_selems, !mem_mdiff, docs_kw_put, H4.
          apply sset_ext. intros k. destruct (mem w nk) eqn:En, (mem w old) eqn:Eo; cbn [andb negb];
            rewrite ?mem_sadd, ?mem_srem, ?mem_docs_kw; destruct (eqb k d) eqn:Ek; try reflexivity;
            apply eqb_eq in Ek; subst; rewrite E; cbn; congruence.
        * intros d' kw'. rewrite get_put. destruct (eqb d' d); [intros [= <-]; exact Hne|]. apply H5.
    - cbn [fst snd]. split; [|reflexivity]. unfold kinv; cbn [krev knum kfwd]. splits.
      + unfold insert_reverse. rewrite Hne. reflexivity.
      + rewrite H2. symmetry. apply Zsize_put_new, E.
      + apply insert_forward_ne, H3.
      + intros w. rewrite insert_forward_spec, docs_kw_put, H4. destruct (mem w nk); [reflexivity|].
        apply sset_ext. intros k. rewrite mem_srem. destruct (eqb k d) eqn:Ek; [|reflexivity].
        apply eqb_eq in Ek; subst. rewrite mem_docs_kw, E. reflexivity.
      + intros d' kw'. rewrite get_put. destruct (eqb d' d); [intros [= <-]; exact Hne|]. apply H5.
  Qed.

  Lemma postings_optimize st w : postings (kfwd (k_optimize st)) w = postings (kfwd st) w.
  Proof.
    unfold postings, k_optimize; cbn [kfwd]. rewrite get_mmap. destruct (get (kfwd st) w) as [[tr s]|]; [|reflexivity].
    destruct (Zsize s >=? threshold st), tr; reflexivity.
  Qed.
  Lemma k_optimize_inv st m : kinv st m -> kinv (k_optimize st) m.
  Proof.
    intros (H1 & H2 & H3 & H4 & H5). unfold kinv. splits; try assumption.
    - intros w p. unfold k_optimize; cbn [kfwd]. rewrite get_mmap. destruct (get (kfwd st) w) as [[tr s]|] eqn:E; [|discriminate].
      intros [= <-]. pose proof (H3 _ _ E) as H. cbn [snd] in H. destruct (Zsize s >=? threshold st), tr; exact H.
    - intros w. rewrite postings_optimize. apply H4.
  Qed.

  Lemma k_step_inv st m o : kinv st m -> op_normal normalize o ->
    kinv (fst (k_step normalize st o)) (kw_step normalize m o).
  Proof.
    intros Hi Hn. destruct o as [d seq|d| | |n]; cbn [k_step].
    - apply k_index_inv; assumption.
    - apply k_unindex_inv, Hi.
    - apply kinv_clear.
    - apply k_optimize_inv, Hi.
    - exact Hi.
  Qed.
  Lemma k_fold_inv (h : list kop) st m : kinv st m -> normal_history normalize h ->
    kinv (fold_left (fun st o => fst (k_step normalize st o)) h st) (fold_left (kw_step normalize) h m).
  Proof.
    intros Hi Hn. revert st m Hi; induction Hn as [|o h Ho Hn IH]; intros st m Hi; cbn [fold_left]; [exact Hi|].
    apply IH, k_step_inv; assumption.
  Qed.
  Lemma k_run_inv (h : list kop) : normal_history normalize h -> kinv (k_run normalize h) (keywords normalize h).
  Proof. apply k_fold_inv, kinv_new. Qed.

  (** ** Answers *)
  Lemma query_words_asked q : query_words normalize q = asked normalize q.
  Proof. destruct q; reflexivity. Qed.
  Lemma k_search_sets st m q op : kinv st m ->
    k_search normalize q op st = combine_sets op (map (docs_kw m) (asked normalize q)).
  Proof.
    intros (_ & _ & _ & H4 & _). unfold k_search. rewrite query_words_asked. f_equal. apply map_ext. intros w. apply H4.
  Qed.

  Lemma k_search_and (h : list kop) q : normal_history normalize h ->
    exists s, k_search normalize q OpAnd (k_run normalize h) = Ok s /\
      forall d, mem d s = true <->
        asked normalize q <> [] /\
        exists kw, get (keywords normalize h) d = Some kw /\ has_all kw (asked normalize q).
  Proof.
    intros Hn. rewrite (k_search_sets _ _ _ _ (k_run_inv h Hn)).
    destruct (combine_and (map (docs_kw (keywords normalize h)) (asked normalize q))) as [s [Hs Hm]].
    exists s. split; [exact Hs|]. intros d. rewrite Hm. clear. set (m := keywords normalize h).
    destruct (asked normalize q) as [|x l].
    - cbn. split; [discriminate|]. intros [H _]. destruct H; reflexivity.
    - cbn [map]. change (docs_kw m x :: map (docs_kw m) l) with (map (docs_kw m) (x :: l)).
      rewrite forallb_forall. split.
      + intros H. split; [discriminate|].
        assert (Hx : mem d (docs_kw m x) = true) by (apply H; left; reflexivity).
        rewrite mem_docs_kw in Hx. destruct (get m d) as [kw|] eqn:E; [|discriminate].
        exists kw. split; [reflexivity|]. intros w Hw.
        assert (Hd : mem d (docs_kw m w) = true) by (apply H, in_map, Hw).
        rewrite mem_docs_kw, E in Hd. exact Hd.
      + intros [_ [kw [E H]]] s' Hs'. apply in_map_iff in Hs' as [w [<- Hw]].
        rewrite mem_docs_kw, E. apply H, Hw.
  Qed.
  Lemma k_search_or (h : list kop) q : normal_history normalize h ->
    exists s, k_search normalize q OpOr (k_run normalize h) = Ok s /\
      forall d, mem d s = true <->
        exists kw, get (keywords normalize h) d = Some kw /\ has_one kw (asked normalize q).
  Proof.
    intros Hn. rewrite (k_search_sets _ _ _ _ (k_run_inv h Hn)).
    destruct (combine_or (map (docs_kw (keywords normalize h)) (asked normalize q))) as [s [Hs Hm]].
    exists s. split; [exact Hs|]. intros d. rewrite Hm. clear. set (m := keywords normalize h).
    rewrite existsb_exists. split.
    - intros [s' [Hs' Hd]]. apply in_map_iff in Hs' as [w [<- Hw]]. rewrite mem_docs_kw in Hd.
      destruct (get m d) as [kw|]; [|discriminate]. exists kw. split; [reflexivity|]. exists w. auto.
    - intros [kw [E [w [Hw Hk]]]]. exists (docs_kw m w). split; [apply in_map, Hw|]. rewrite mem_docs_kw, E. exact Hk.
  Qed.
  Lemma k_search_other st q : k_search normalize q OpOther st = Raise TypeError.
  Proof. reflexivity. Qed.

  Lemma k_words_keys st m w : kinv st m ->
    (In w (keys (kfwd st)) <-> exists d kw, get m d = Some kw /\ mem w kw = true).
  Proof.
    intros (_ & _ & H3 & H4 & _). rewrite keys_In. specialize (H4 w). unfold postings in H4. split.
    - intros [p Hp]. rewrite Hp in H4. pose proof (H3 _ _ Hp) as Hne. rewrite H4 in Hne.
      apply is_empty_false in Hne as [d [u Hd]].
      assert (Hm : mem d (docs_kw m w) = true) by (unfold mem; rewrite Hd; reflexivity).
      rewrite mem_docs_kw in Hm. destruct (get m d) as [kw|] eqn:E; [|discriminate]. eauto.
    - intros (d & kw & E & Hw). destruct (get (kfwd st) w) as [p|] eqn:Ep; [eauto|].
      assert (Hm : mem d (docs_kw m w) = true) by (rewrite mem_docs_kw, E; exact Hw).
      rewrite <- H4 in Hm. discriminate.
  Qed.
  Lemma k_stats (h : list kop) : normal_history normalize h ->
    k_documentCount (k_run normalize h) = Zlen (keys (keywords normalize h)) /\
    (exists words, NoDup words /\
       (forall w, In w words <-> exists d kw, get (keywords normalize h) d = Some kw /\ mem w kw = true) /\
       k_wordCount (k_run normalize h) = Zlen words) /\
    (forall d, k_has_doc d (k_run normalize h) = mem d (keywords normalize h)).
  Proof.
    intros Hn. pose proof (k_run_inv h Hn) as Hi. splits.
    - unfold k_documentCount. destruct Hi as (_ & -> & _). unfold Zsize, size, Zlen, keys. rewrite map_length. reflexivity.
    - exists (keys (kfwd (k_run normalize h))). splits.
      + apply keys_NoDup.
      + intros w. apply (k_words_keys _ _ _ Hi).
      + unfold k_wordCount, Zsize, size, Zlen, keys. rewrite map_length. reflexivity.
    - intros d. unfold k_has_doc. destruct Hi as (-> & _). reflexivity.
  Qed.

  Lemma kinv_same st1 st2 m : kinv st1 m -> kinv st2 m -> same_answers normalize st1 st2.
  Proof.
    intros H1 H2. unfold same_answers. splits.
    - unfold k_documentCount. destruct H1 as (_ & -> & _), H2 as (_ & -> & _). reflexivity.
    - unfold k_wordCount, Zsize, size. f_equal. rewrite <- !(map_length fst).
      apply Permutation_length. apply NoDup_Permutation; [apply keys_NoDup|apply keys_NoDup|].
      intros w. rewrite (k_words_keys _ _ _ H1), (k_words_keys _ _ _ H2). reflexivity.
    - intros d. unfold k_has_doc. destruct H1 as (-> & _), H2 as (-> & _). reflexivity.
    - intros q op. rewrite (k_search_sets _ _ _ _ H1), (k_search_sets _ _ _ _ H2). reflexivity.
  Qed.

  Lemma same_keywords (h1 h2 : list kop) : normal_history normalize h1 -> normal_history normalize h2 ->
    keywords normalize h1 = keywords normalize h2 -> same_answers normalize (k_run normalize h1) (k_run normalize h2).
  Proof.
    intros N1 N2 E. eapply kinv_same; [apply k_run_inv, N1|]. rewrite E. apply k_run_inv, N2.
  Qed.

  Lemma k_calls_ok (h : list kop) o : normal_history normalize h -> op_normal normalize o ->
    snd (k_step normalize (k_run normalize h) o) = match o with KIndex _ SeqStr => Raise TypeError | _ => Ok tt end /\
    (forall d, o = KIndex d SeqStr -> fst (k_step normalize (k_run normalize h) o) = k_run normalize h).
  Proof.
    intros Hn Ho. split.
    - destruct o as [d seq|d| | |n]; try reflexivity. cbn [k_step].
      destruct (k_index_inv d seq _ _ (k_run_inv h Hn) Ho) as [_ ->]. destruct seq; reflexivity.
    - intros d ->. reflexivity.
  Qed.

  Lemma keywords_snoc h o : keywords normalize (h ++ [o]) = kw_step normalize (keywords normalize h) o.
  Proof. unfold keywords. rewrite fold_left_app. reflexivity. Qed.

  Lemma keywords_last (h : list kop) d : get (keywords normalize h) d = kw_last normalize d (rev h).
  Proof.
    induction h as [|o h IH] using rev_ind; [reflexivity|].
    rewrite keywords_snoc, rev_unit. destruct o as [d' [|[|x l]]|d'| | |n]; cbn [kw_step kw_last].
    - exact IH.
    - rewrite get_del. destruct (eqb d d'); [reflexivity|exact IH].
    - rewrite get_put. destruct (eqb d d'); [reflexivity|exact IH].
    - rewrite get_del. destruct (eqb d d'); [reflexivity|exact IH].
    - apply get_empty.
    - exact IH.
    - exact IH.
  Qed.

  Lemma snoc_normal (h : list kop) o : normal_history normalize h -> op_normal normalize o ->
    normal_history normalize (h ++ [o]).
  Proof. intros Hn Ho. apply Forall_app. split; [exact Hn|]. constructor; [exact Ho|constructor]. Qed.
  Lemma remove_laws (h : list kop) d : normal_history normalize h ->
    (forall d', get (keywords normalize (h ++ [KUnindex d])) d' = if eqb d' d then None else get (keywords normalize h) d') /\
    keywords normalize (h ++ [KIndex d (SeqList [])]) = keywords normalize (h ++ [KUnindex d]) /\
    k_run normalize (h ++ [KIndex d (SeqList [])]) = k_run normalize (h ++ [KUnindex d]) /\
    (k_has_doc d (k_run normalize h) = false ->
       k_run normalize (h ++ [KUnindex d]) = k_run normalize h).
  Proof.
    intros Hn. rewrite !keywords_snoc. cbn [kw_step]. splits.
    - intros d'. apply get_del.
    - reflexivity.
    - unfold k_run. rewrite !fold_left_app. cbn [fold_left k_step fst]. fold (k_run normalize h).
      pose proof (k_run_inv h Hn) as Hi. set (st := k_run normalize h) in *. cbn [k_index].
      destruct (get (krev st) d) as [kw|] eqn:E; cbn [fst].
      + destruct Hi as (H1 & _ & _ & _ & H5). rewrite H1 in E. rewrite (H5 _ _ E). reflexivity.
      + unfold k_unindex. rewrite E. reflexivity.
    - intros Hd. unfold k_run. rewrite fold_left_app. cbn [fold_left k_step fst]. fold (k_run normalize h).
      unfold k_has_doc in Hd. apply mem_false in Hd. unfold k_unindex. rewrite Hd. reflexivity.
  Qed.
  Lemma replace_law (h : list kop) d l : l <> [] ->
    forall d', get (keywords normalize (h ++ [KIndex d (SeqList l)])) d' =
      if eqb d' d then Some (set_of_list (normalize l)) else get (keywords normalize h) d'.
  Proof.
    intros Hl d'. rewrite keywords_snoc. destruct l as [|x l]; [contradiction|]. apply get_put.
  Qed.

  (** ** What an update changes, as seen by searches *)
  Lemma found_and (h : list kop) q d : normal_history normalize h ->
    (found normalize q OpAnd (k_run normalize h) d <->
     asked normalize q <> [] /\ exists kw, get (keywords normalize h) d = Some kw /\ has_all kw (asked normalize q)).
  Proof.
    intros Hn. destruct (k_search_and h q Hn) as (s & Hs & Hm). unfold found. rewrite Hs, <- Hm. split.
    - intros (s' & [= <-] & H). exact H.
    - eauto.
  Qed.
  Lemma found_or (h : list kop) q d : normal_history normalize h ->
    (found normalize q OpOr (k_run normalize h) d <->
     exists kw, get (keywords normalize h) d = Some kw /\ has_one kw (asked normalize q)).
  Proof.
    intros Hn. destruct (k_search_or h q Hn) as (s & Hs & Hm). unfold found. rewrite Hs, <- Hm. split.
    - intros (s' & [= <-] & H). exact H.
    - eauto.
  Qed.
  Lemma found_other st q d : ~ found normalize q OpOther st d.
  Proof. intros (s & H & _). discriminate. Qed.
  Lemma found_same (h1 h2 : list kop) q op d : normal_history normalize h1 -> normal_history normalize h2 ->
    get (keywords normalize h1) d = get (keywords normalize h2) d ->
    (found normalize q op (k_run normalize h1) d <-> found normalize q op (k_run normalize h2) d).
  Proof.
    intros H1 H2 E. destruct op.
    - rewrite (found_and h1 q d H1), (found_and h2 q d H2), E. reflexivity.
    - rewrite (found_or h1 q d H1), (found_or h2 q d H2), E. reflexivity.
    - split; intros H; exfalso; exact (found_other _ _ _ H).
  Qed.
  Lemma normal_snoc (h : list kop) o : normal_history normalize h -> op_normal normalize o -> normal_history normalize (h ++ [o]).
  Proof. intros H Ho. apply Forall_app. split; [exact H|]. constructor; [exact Ho|constructor]. Qed.
  Lemma index_observed (h : list kop) d l : normal_history normalize h -> l <> [] -> normalize l <> [] ->
    let before := k_run normalize h in
    let after := k_run normalize (h ++ [KIndex d (SeqList l)]) in
    (forall d' q op, d' <> d -> (found normalize q op after d' <-> found normalize q op before d')) /\
    (forall q, found normalize q OpAnd after d <-> asked normalize q <> [] /\ incl (asked normalize q) (normalize l)) /\
    (forall q, found normalize q OpOr after d <-> exists w, In w (asked normalize q) /\ In w (normalize l)) /\
    k_has_doc d after = true.
  Proof.
    intros Hn Hl Hnl before after. assert (Hn' : normal_history normalize (h ++ [KIndex d (SeqList l)])).
    { apply normal_snoc; [exact Hn|]. intros _. exact Hnl. }
    pose proof (replace_law h d l Hl) as HL. pose proof (HL d) as Hd. rewrite eqb_refl in Hd. splits.
    - intros d' q op Hne. apply found_same; [exact Hn'|exact Hn|]. rewrite HL. destruct (eqb d' d) eqn:E; [|reflexivity].
      apply eqb_eq in E. contradiction.
    - intros q. unfold after. rewrite (found_and _ q d Hn'), Hd. split.
      + intros (Ha & kw & [= <-] & Hall). split; [exact Ha|]. intros w Hw. specialize (Hall w Hw).
        apply mem_set_of_list_In in Hall. exact Hall.
      + intros (Ha & Hi). split; [exact Ha|]. eexists. split; [reflexivity|]. intros w Hw. apply mem_set_of_list_In. apply Hi, Hw.
    - intros q. unfold after. rewrite (found_or _ q d Hn'), Hd. split.
      + intros (kw & [= <-] & w & Hw & Hm). exists w. apply mem_set_of_list_In in Hm. auto.
      + intros (w & Hw & Hi). eexists. split; [reflexivity|]. exists w. split; [exact Hw|]. apply mem_set_of_list_In, Hi.
    - destruct (k_stats _ Hn') as (_ & _ & H). unfold after. rewrite H. unfold mem. rewrite Hd. reflexivity.
  Qed.
  Lemma unindex_observed (h : list kop) d : normal_history normalize h ->
    let before := k_run normalize h in
    let after := k_run normalize (h ++ [KUnindex d]) in
    (forall d' q op, d' <> d -> (found normalize q op after d' <-> found normalize q op before d')) /\
    (forall q op, ~ found normalize q op after d) /\
    k_has_doc d after = false.
  Proof.
    intros Hn before after. assert (Hn' : normal_history normalize (h ++ [KUnindex d])) by (apply normal_snoc; [exact Hn|exact I]).
    destruct (remove_laws h d Hn) as (HL & _). pose proof (HL d) as Hd. rewrite eqb_refl in Hd. splits.
    - intros d' q op Hne. apply found_same; [exact Hn'|exact Hn|]. rewrite HL. destruct (eqb d' d) eqn:E; [|reflexivity].
      apply eqb_eq in E. contradiction.
    - intros q op. unfold after. destruct op.
      + rewrite (found_and _ q d Hn'), Hd. intros (_ & kw & [=] & _).
      + rewrite (found_or _ q d Hn'), Hd. intros (kw & [=] & _).
      + apply found_other.
    - destruct (k_stats _ Hn') as (_ & _ & H). unfold after. rewrite H. unfold mem. rewrite Hd. reflexivity.
  Qed.

  Lemma k_apply_arg (a : kapply W) st : fst (k_apply normalize a st) = a.
  Proof. destruct a as [[[o|] [q|]]|q]; reflexivity. Qed.
  Lemma k_apply_means st q op :
    snd (k_apply normalize (AQuery q) st) = k_search normalize q OpAnd st /\
    snd (k_apply normalize (ADict (mkDict (Some op) (Some q))) st) = k_search normalize q op st /\
    snd (k_apply normalize (ADict (mkDict None (Some q))) st) = k_search normalize q OpAnd st /\
    (forall o, snd (k_apply normalize (ADict (mkDict o None)) st) = Raise KeyError).
  Proof. splits; reflexivity. Qed.

  Lemma tuning_invisible (h : list kop) : normal_history normalize h ->
    same_answers normalize (k_run normalize h) (k_run normalize (filter (fun o => negb (tuning o)) h)).
  Proof.
    intros Hn. apply same_keywords; [exact Hn| |].
    - apply Forall_forall. intros o Ho. apply filter_In in Ho as [Ho _].
      unfold normal_history in Hn. rewrite Forall_forall in Hn. apply Hn, Ho.
    - unfold keywords. generalize (@empty Z (sset W) _). clear. induction h as [|o h IH]; intros m; cbn [filter fold_left]; [reflexivity|].
      destruct o as [d seq|d| | |n]; cbn [tuning negb fold_left]; apply IH.
  Qed.

  Lemma optimize_kinds st w is_tree s :
    get (kfwd (k_optimize st)) w = Some (is_tree, s) -> (is_tree = true <-> threshold st <= Zsize s).
  Proof.
    unfold k_optimize; cbn [kfwd]. rewrite get_mmap. destruct (get (kfwd st) w) as [[tr s']|]; [|discriminate].
    destruct (Zsize s' >=? threshold st) eqn:E, tr; cbn; intros [= <- <-]; split; intros; try lia; try discriminate; reflexivity.
  Qed.
End L.

(** ** Case-insensitive indexes *)
Section Lower.
  Context {W : Type} `{OW : Ord W}.
  Variable lower : W -> W.
  Local Notation lower_op := (lower_op lower).
  Local Notation lower_query := (lower_query lower).

  Lemma lower_index d seq st :
    k_index (normalize_lower lower) d seq st =
    match seq with SeqStr => (st, Raise TypeError) | SeqList l => k_index normalize_id d (SeqList (map lower l)) st end.
  Proof. destruct seq as [|[|x l]]; reflexivity. Qed.
  Lemma lower_run (h : list (kop W)) : k_run (normalize_lower lower) h = k_run normalize_id (map lower_op h).
  Proof.
    unfold k_run. generalize (@k_new W _). induction h as [|o h IH]; intros st; cbn [fold_left map]; [reflexivity|].
    rewrite IH. f_equal. destruct o as [d [|l]|d| | |n]; try reflexivity. cbn [k_step lower_op].
    rewrite lower_index. reflexivity.
  Qed.
  Lemma lower_search q op st : k_search (normalize_lower lower) q op st = k_search normalize_id (lower_query q) op st.
  Proof. destruct q; reflexivity. Qed.
  Lemma case_insensitive (h1 h2 : list (kop W)) q1 q2 op :
    map lower_op h1 = map lower_op h2 -> lower_query q1 = lower_query q2 ->
    k_search (normalize_lower lower) q1 op (k_run (normalize_lower lower) h1)
    = k_search (normalize_lower lower) q2 op (k_run (normalize_lower lower) h2) /\
    k_run (normalize_lower lower) h1 = k_run (normalize_lower lower) h2.
  Proof.
    intros Hh Hq. rewrite !lower_search, !lower_run, Hh, Hq. auto.
  Qed.
  Lemma lower_normal (h : list (kop W)) : normal_history (normalize_lower lower) h.
  Proof.
    apply Forall_forall. intros [d [|[|x l]]|d| | |n] _; cbn; try exact I; intros H; try discriminate; contradiction.
  Qed.
  Lemma id_normal (h : list (kop W)) : normal_history normalize_id h.
  Proof.
    apply Forall_forall. intros [d [|[|x l]]|d| | |n] _; cbn; try exact I; intros H; try discriminate; contradiction.
  Qed.
End Lower.
