(** * Concurrent transactions on the keyword index *)
From Verif Require Import S_keyword L_keyword L_kwheap M_zodb S_zodb L_zodb SMap Ord.

Section L.
  Context {W : Type} `{OW : Ord W}.
  Variable normalize : list W -> list W.
  Variable thr : Z.
  (** Posting sets are TreeSets (threshold at most 1) or Sets (few documents). *)
  Variable flag : bool.
  Notation hf := (mem_heap * smap W Z)%type.
  Notation zst := (zstate W (sset W)).
  Implicit Types (st snap cur : zst) (s : hf) (w : W) (d x l : Z) (m : smap Z (sset W)).

  Definition k_has (kw : sset W) w : bool := mem w kw.
  Definition k_ok (kw : sset W) : Prop := is_empty kw = false.
  Definition k_inv : zst -> Prop := zinv k_has (fun _ _ => true) k_ok flag.
  Definition kflags s : Prop := forall w x, get (snd s) w = Some x -> fst (load (fst s) x) = flag.

  Lemma k_inv_kinv st : k_inv st <-> hwf (zs st) /\ kinv (zk_view thr st) (zrev st) /\ kflags (zs st).
  Proof.
    assert (Hg : forall w, get (kfwd (zk_view thr st)) w = option_map (load (zheap st)) (get (zfwd st) w)).
    { intros w. unfold zk_view; cbn [kfwd]. rewrite get_mmap. destruct (get (zfwd st) w); reflexivity. }
    split.
    - intros (H1 & H2 & H3 & _ & H5 & H6). split; [exact H1|]. split; [|exact H6]. split; [reflexivity|]. split; [exact H3|].
      split; [|split].
      + intros w p. rewrite Hg. specialize (H2 w). cbn [snd fst zs] in H2. destruct (get (zfwd st) w) as [x|]; [|discriminate].
        intros [= <-]. apply H2.
      + intros w. unfold postings. rewrite Hg. specialize (H2 w). cbn [snd fst zs] in H2. apply sset_ext. intros d. rewrite mem_docs_kw.
        destruct (get (zfwd st) w) as [x|]; cbn [option_map]; [apply H2|]. symmetry. apply H2.
      + exact H5.
    - intros (H1 & (_ & H3 & H4 & H5 & H7) & H6). split; [exact H1|]. split; [|split; [exact H3|split; [reflexivity|split; [exact H7|exact H6]]]].
      intros w. cbn [snd fst zs]. specialize (H5 w). specialize (H4 w). unfold postings in H5. rewrite Hg in *.
      assert (Hm : forall d, holds k_has (zrev st) d w = mem d (docs_kw (zrev st) w)) by (intros d; rewrite mem_docs_kw; reflexivity).
      destruct (get (zfwd st) w) as [x|]; cbn [option_map] in *.
      + split; [apply H4; reflexivity|]. intros d. rewrite Hm, <- H5. reflexivity.
      + intros d. rewrite Hm, <- H5. reflexivity.
  Qed.

  (** ** Posting objects are not replaced *)
  Definition stays s d w : Prop :=
    (flag = true /\ thr <= 1) \/ (flag = false /\ Zsize (sadd d (postings (absf s) w)) < thr).

  Lemma Zsize_sadd_pos d (e : sset Z) : 1 <= Zsize (sadd d e).
  Proof.
    unfold sadd. destruct (get e d) eqn:E.
    - rewrite (Zsize_put_old _ _ _ _ E). unfold Zsize. destruct (size e) eqn:Es; [|lia].
      apply size_0 in Es. subst. discriminate.
    - rewrite (Zsize_put_new _ _ _ E). unfold Zsize. lia.
  Qed.

  Lemma insert_word_evolves s d w : hwf s -> kflags s -> stays s d w ->
    hwf (h_insert_word thr d s w) /\ evolves s (h_insert_word thr d s w) /\ kflags (h_insert_word thr d s w).
  Proof.
    intros Hw Hf Hs. pose proof (proj1 (h_insert_word_ok thr d s w Hw)) as [G Fr]. split; [exact G|].
    revert G Fr. unfold h_insert_word, stays in *. unfold postings in Hs. rewrite get_absf in Hs.
    destruct s as [hp fwd]; cbn [fst snd] in *. destruct (get fwd w) as [l|] eqn:E.
    - pose proof (Hf w l E) as Hl. cbn [fst] in Hl.
      pose proof (evolves_store (hp, fwd) w l (sadd d (snd (load hp l))) Hw E) as V. cbn [fst snd] in V.
      destruct (load hp l) as [tr els] eqn:El. cbn [fst snd] in *. subst tr.
      assert (Hno : negb flag && (Zsize (sadd d els) >=? thr) = false).
      { destruct Hs as [[-> _]|[-> Hs]]; [reflexivity|]. cbn. lia. }
      rewrite Hno. intros _ _. split; [exact V|].
      intros w' x Hx. cbn [fst snd] in *. rewrite load_store. destruct (eqb x l); [reflexivity|]. apply (Hf w' x Hx).
    - intros G Fr. cbn [alloc] in *.
      set (hp1 := mkHeap (put (next hp) (false, empty) (cells hp)) (next hp + 1)) in *.
      assert (L1 : load hp1 (next hp) = (false, empty)) by (unfold load, hp1; cbn [cells]; rewrite get_put_same; reflexivity).
      rewrite L1 in *. set (e := sadd d empty) in *.
      assert (Lo : forall x, x < next hp -> load hp1 x = load hp x).
      { intros x Hx. unfold load, hp1; cbn [cells]. rewrite get_put_other by lia. reflexivity. }
      destruct (negb false && (Zsize e >=? thr)) eqn:Ec.
      + split; [split; [exact Fr|]|]; cbn [fst snd].
        * intros w' x Hx. pose proof (proj1 Hw _ _ Hx) as Hlt. cbn [fst] in Hlt.
          assert (Ex : load (mkHeap (put (next (store (next hp) (false, e) hp1)) (true, e) (cells (store (next hp) (false, e) hp1))) (next (store (next hp) (false, e) hp1) + 1)) x = load hp x).
          { rewrite <- (Lo x Hlt). unfold load; cbn [cells store hp1 next]. rewrite !get_put_other by lia. reflexivity. }
          rewrite Ex. split; [reflexivity|]. left. rewrite !get_put_other; [exact Hx| |]; intros ->; congruence.
        * intros w' x. cbn [fst snd]. rewrite get_put. destruct (eqb w' w) eqn:Ew.
          -- intros [= <-]. unfold load; cbn [cells]. rewrite get_put_same. cbn [fst].
             destruct Hs as [[-> _]|[_ Hs]]; [reflexivity|]. lia.
          -- rewrite get_put, Ew. intros Hx. pose proof (proj1 Hw _ _ Hx) as Hlt. cbn [fst] in Hlt.
             assert (Ex : load (mkHeap (put (next (store (next hp) (false, e) hp1)) (true, e) (cells (store (next hp) (false, e) hp1))) (next (store (next hp) (false, e) hp1) + 1)) x = load hp x).
             { rewrite <- (Lo x Hlt). unfold load; cbn [cells store hp1 next]. rewrite !get_put_other by lia. reflexivity. }
             rewrite Ex. apply (Hf w' x Hx).
      + assert (Hfl : flag = false).
        { destruct Hs as [[_ Hs]|[Hs _]]; [|exact Hs]. pose proof (Zsize_sadd_pos d empty). cbn in Ec. unfold e in Ec. lia. }
        split; [split; [exact Fr|]|]; cbn [fst snd].
        * intros w' x Hx. pose proof (proj1 Hw _ _ Hx) as Hlt. cbn [fst] in Hlt.
          rewrite load_store, Zeqb_lt by exact Hlt. rewrite (Lo x Hlt). split; [reflexivity|].
          left. rewrite get_put_other; [exact Hx|]; intros ->; congruence.
        * intros w' x. cbn [fst snd]. rewrite get_put, load_store. destruct (eqb w' w) eqn:Ew.
          -- intros [= <-]. rewrite eqb_refl. rewrite Hfl. reflexivity.
          -- intros Hx. pose proof (proj1 Hw _ _ Hx) as Hlt. cbn [fst] in Hlt. rewrite Zeqb_lt by exact Hlt.
             rewrite (Lo x Hlt). apply (Hf w' x Hx).
  Qed.

  Lemma insert_words_evolves d ws s : hwf s -> kflags s -> (forall w, In w ws -> stays s d w) ->
    let s' := fold_left (h_insert_word thr d) ws s in hwf s' /\ evolves s s' /\ kflags s'.
  Proof.
    revert s; induction ws as [|x ws IH]; intros s Hw Hf Hs; cbn [fold_left].
    - split; [exact Hw|split; [apply evolves_refl|exact Hf]].
    - destruct (insert_word_evolves s d x Hw Hf (Hs x (or_introl eq_refl))) as (W1 & V1 & F1).
      destruct (IH _ W1 F1) as (W2 & V2 & F2).
      + intros w Hin. specialize (Hs w (or_intror Hin)). destruct Hs as [Hs|[E Hs]]; [left; exact Hs|]. right. split; [exact E|].
        rewrite (proj2 (h_insert_word_ok thr d s x Hw)), insert_word_spec. destruct (eqb w x); [|exact Hs].
        assert (Ed : sadd d (sadd d (postings (absf s) w)) = sadd d (postings (absf s) w)).
        { apply sset_ext. intros k. rewrite !mem_sadd. destruct (eqb k d); reflexivity. }
        rewrite Ed. exact Hs.
      + split; [exact W2|split; [eapply evolves_trans; eassumption|exact F2]].
  Qed.
  Lemma remove_words_evolves d ws s : hwf s -> kflags s ->
    let s' := fst (h_remove_words d ws s) in hwf s' /\ evolves s s' /\ kflags s'.
  Proof.
    revert s; induction ws as [|x ws IH]; intros s Hw Hf; cbn [h_remove_words].
    - split; [exact Hw|split; [apply evolves_refl|exact Hf]].
    - destruct s as [hp fwd]. cbn [fst snd]. destruct (get fwd x) as [l|] eqn:E.
      2:{ split; [exact Hw|split; [apply evolves_refl|exact Hf]]. }
      pose proof (fun e => evolves_store (hp, fwd) x l e Hw E) as V. cbn [fst snd] in V.
      destruct (load hp l) as [tr els] eqn:El. cbn [fst] in V. destruct (mem d els).
      2:{ split; [exact Hw|split; [apply evolves_refl|exact Hf]]. }
      specialize (V (srem d els)).
      pose proof (proj1 (good_store (hp, fwd) x l (tr, srem d els) Hw E)) as W1. cbn [fst snd] in W1.
      set (s1 := (store l (tr, srem d els) hp, fwd)) in *.
      assert (F1 : kflags s1).
      { intros w y Hy. unfold s1 in *; cbn [fst snd] in *. rewrite load_store. destruct (eqb y l) eqn:Ey; [|apply (Hf w y Hy)].
        cbn [fst]. specialize (Hf x l E). cbn [fst] in Hf. rewrite El in Hf. exact Hf. }
      destruct (is_empty (srem d els)) eqn:Ee.
      + assert (Ee' : is_empty (snd (load (fst s1) l)) = true) by (unfold s1; cbn [fst]; rewrite load_store, eqb_refl; exact Ee).
        pose proof (evolves_drop s1 x l W1 E Ee') as V2. pose proof (proj1 (good_del s1 x W1)) as W2.
        change (fst s1, del x (snd s1)) with (store l (tr, srem d els) hp, del x fwd) in *.
        assert (F2 : kflags (store l (tr, srem d els) hp, del x fwd)).
        { intros w y. cbn [fst snd]. rewrite get_del. destruct (eqb w x); [discriminate|]. intros Hy. apply (F1 w y Hy). }
        destruct (IH _ W2 F2) as (W3 & V3 & F3). split; [exact W3|split; [|exact F3]].
        eapply evolves_trans; [exact V|]. eapply evolves_trans; [exact V2|exact V3].
      + destruct (IH _ W1 F1) as (W3 & V3 & F3). split; [exact W3|split; [|exact F3]].
        eapply evolves_trans; [exact V|exact V3].
  Qed.

  (** ** What the calls do *)
  Lemma docs_kw_count m w : Zsize (docs_kw m w) = Zlen (filter (fun p => mem w (snd p)) (elts m)).
  Proof. unfold docs_kw, Zsize, size, Zlen. unfold mmap, sfilter; cbn [elts]. rewrite map_length. reflexivity. Qed.

  Definition k_safe m : Prop := (flag = true /\ thr <= 1) \/ (flag = false /\ all_below thr m).
  Definition k_okstep st (op : kop W) : Prop :=
    op_normal normalize op /\ k_safe (zrev st) /\ k_safe (kw_step normalize (zrev st) op).

  Definition kkeeps st st' : Prop := hwf (zs st') /\ evolves (zs st) (zs st') /\ kflags (zs st').
  Lemma kkeeps_refl st : hwf (zs st) -> kflags (zs st) -> kkeeps st (zk_out (zgen st) (zk_in thr st)).
  Proof. intros Hw Hf. split; [exact Hw|split; [apply evolves_refl|exact Hf]]. Qed.

  Lemma unindex_keeps d st : hwf (zs st) -> kflags (zs st) -> kkeeps st (zk_out (zgen st) (h_unindex d (zk_in thr st))).
  Proof.
    intros Hw Hf. unfold h_unindex. cbn [zk_in hrev hheap hfwd hnum hthr].
    destruct (get (zrev st) d) as [words|].
    2:{ apply kkeeps_refl; assumption. }
    pose proof (remove_words_evolves d (selems words) (zheap st, zfwd st) Hw Hf) as H. cbn zeta in H.
    destruct (h_remove_words d (selems words) (zheap st, zfwd st)) as [[hp fwd] [u|e]]; exact H.
  Qed.
  Lemma index_keeps d seq st : k_inv st -> k_okstep st (KIndex d seq) ->
    kkeeps st (zk_out (zgen st) (fst (h_index normalize d seq (zk_in thr st)))).
  Proof.
    intros Hi (Hn & Hs1 & Hs2). apply k_inv_kinv in Hi as (Hw & (_ & _ & Hne & Hp & _) & Hf).
    destruct seq as [|[|x l]]; cbn [h_index]; cbn [zk_in hrev hheap hfwd hnum hthr].
    - apply kkeeps_refl; assumption.
    - destruct (get (zrev st) d) as [kw|]; [|apply kkeeps_refl; assumption].
      destruct (is_empty kw); [apply kkeeps_refl; assumption|]. apply (unindex_keeps d st Hw Hf).
    - cbn [kw_step] in Hs2. set (nk := set_of_list (normalize (x :: l))) in *.
      change (zk_view thr st) with (absk (zk_in thr st)) in Hp. change (kfwd (absk (zk_in thr st))) with (absf (zs st)) in Hp.
      assert (Hst : forall w, mem w nk = true -> postings (absf (zs st)) w = docs_kw (zrev st) w ->
                (flag = true /\ thr <= 1) \/ (flag = false /\ Zsize (sadd d (postings (absf (zs st)) w)) < thr)).
      { intros w Hm E. destruct Hs2 as [H|[H1 H2]]; [left; exact H|]. right. split; [exact H1|].
        specialize (H2 w). rewrite <- docs_kw_count in H2. rewrite docs_kw_put, Hm in H2. rewrite E. exact H2. }
      destruct (get (zrev st) d) as [old|] eqn:Eo.
      + pose proof (remove_words_evolves d (selems (mdiff old nk)) (zheap st, zfwd st) Hw Hf) as H. cbn zeta in H.
        destruct (remove_words_spec d (selems (mdiff old nk)) (absf (zs st))) as (fwd' & Er & _ & Hp').
        { unfold selems. apply keys_NoDup. }
        { intros w Hin. apply selems_In in Hin. rewrite mem_mdiff in Hin. apply andb_true_iff in Hin as [Hin _].
          rewrite Hp, mem_docs_kw, Eo. exact Hin. }
        { exact Hne. }
        destruct (h_remove_words_ok d (selems (mdiff old nk)) (zs st) Hw) as [_ Ea]. rewrite Er in Ea. unfold zs in Ea.
        destruct (h_remove_words d (selems (mdiff old nk)) (zheap st, zfwd st)) as [[hp fwd] [u|e]] eqn:Eh.
        2:{ exact H. }
        cbn [fst snd] in Ea. injection Ea as Ea. cbn [fst] in H. destruct H as (W1 & V1 & F1).
        pose proof (insert_words_evolves d (selems (mdiff nk old)) (hp, fwd) W1 F1) as I.
        unfold h_insert_forward. destruct (fold_left _ _ _) as [hp' fwd2]. destruct I as (W2 & V2 & F2).
        { intros w Hin. apply selems_In in Hin. rewrite mem_mdiff in Hin. apply andb_true_iff in Hin as [Hin Hno].
          unfold stays. rewrite Ea, Hp'.
          assert (Ex : existsb (eqb w) (selems (mdiff old nk)) = false).
          { destruct (existsb _ _) eqn:Ex; [|reflexivity]. apply existsb_eqb_In, selems_In in Ex. rewrite mem_mdiff, Hin in Ex.
            rewrite andb_false_r in Ex. discriminate. }
          rewrite Ex. apply Hst; [exact Hin|apply Hp]. }
        split; [exact W2|split; [eapply evolves_trans; [exact V1|exact V2]|exact F2]].
      + pose proof (insert_words_evolves d (selems nk) (zheap st, zfwd st) Hw Hf) as I.
        unfold h_insert_forward. destruct (fold_left _ _ _) as [hp' fwd2]. apply I.
        intros w Hin. apply selems_In in Hin. apply Hst; [exact Hin|apply Hp].
  Qed.
  Lemma fold_left_id {A B} (f : A -> B -> A) (l : list B) (a : A) : (forall x : B, In x l -> f a x = a) -> fold_left f l a = a.
  Proof. clear. induction l as [|x l IH]; intros H; [reflexivity|]. cbn. rewrite H by (left; reflexivity). apply IH. intros y Hy. apply H. right; exact Hy. Qed.
  Lemma optimize_id st : k_inv st -> k_safe (zrev st) -> zk_out (zgen st) (h_optimize (zk_in thr st)) = st.
  Proof.
    intros Hi Hs. apply k_inv_kinv in Hi as (Hw & (_ & _ & Hne & Hp & _) & Hf).
    unfold h_optimize. cbn [zk_in hrev hheap hfwd hnum hthr]. rewrite fold_left_id; [destruct st; reflexivity|].
    intros [w l] Hin. apply get_In in Hin. specialize (Hf w l Hin). cbn [fst zs] in Hf.
    specialize (Hp w). unfold postings in Hp. specialize (Hne w).
    assert (Eg : get (kfwd (zk_view thr st)) w = Some (load (zheap st) l)).
    { unfold zk_view; cbn [kfwd]. rewrite get_mmap, Hin. reflexivity. }
    rewrite Eg in *. specialize (Hne _ eq_refl). unfold h_optimize_word.
    destruct (load (zheap st) l) as [tr els]. cbn [fst snd] in *. subst tr.
    destruct Hs as [[-> Ht]|[-> Hs]].
    - assert (1 <= Zsize els).
      { unfold Zsize. destruct (size els) eqn:Es; [|lia]. apply size_0 in Es. rewrite Es in Hne. discriminate. }
      replace (Zsize els >=? thr) with true by lia. reflexivity.
    - specialize (Hs w). rewrite <- docs_kw_count, <- Hp in Hs. replace (Zsize els >=? thr) with false by lia. reflexivity.
  Qed.

  Lemma k_unindex_threshold d (st : kstate W) : threshold (k_unindex d st) = threshold st.
  Proof. clear. unfold k_unindex. destruct (get (krev st) d); [|reflexivity]. destruct (remove_words _ _ _) as [? [|]]; reflexivity. Qed.
  Lemma k_index_threshold d seq (st : kstate W) : threshold (fst (k_index normalize d seq st)) = threshold st.
  Proof.
    clear. destruct seq as [|[|x l]]; cbn [k_index].
    - reflexivity.
    - destruct (get (krev st) d) as [kw|]; [|reflexivity]. destruct (is_empty kw); [reflexivity|apply k_unindex_threshold].
    - destruct (get (krev st) d); [|reflexivity]. destruct (remove_words _ _ _) as [? [|]]; reflexivity.
  Qed.
  Lemma krel_refl st : zrel st st.
  Proof. split; [lia|]. split; [lia|]. intros _. apply evolves_refl. Qed.
  Lemma zk_step_ok st (op : kop W) : k_inv st -> k_okstep st op ->
    (k_inv (zk_step normalize thr st op) /\ zrel st (zk_step normalize thr st op)) /\
    zrev (zk_step normalize thr st op) = kw_step normalize (zrev st) op /\
    zgen (zk_step normalize thr st op) = zgen st + (match op with KClear => 1 | _ => 0 end).
  Proof.
    intros Hi Hok. pose proof Hi as Hi0. apply k_inv_kinv in Hi0 as (Hw & Hk & Hf).
    assert (Hgen : forall st', zgen st' = zgen st -> zk_view thr st' = fst (k_step normalize (zk_view thr st) op) -> kkeeps st st' ->
      (k_inv st' /\ zrel st st') /\ zrev st' = kw_step normalize (zrev st) op).
    { intros st' Eg Ev (K1 & K2 & K3). pose proof (k_step_inv normalize _ _ op Hk (proj1 Hok)) as Hk'. rewrite <- Ev in Hk'.
      assert (Er : zrev st' = kw_step normalize (zrev st) op) by apply Hk'.
      split; [|exact Er]. split; [apply k_inv_kinv; rewrite Er; auto|].
      split; [lia|]. split; [apply (proj1 K2)|]. intros _. exact K2. }
    assert (Hh : hwf (hs (zk_in thr st))) by exact Hw.
    destruct op as [d seq|d| | |n]; cbn [zk_step].
    - destruct (h_index_ok normalize d seq (zk_in thr st) Hh) as [_ A].
      destruct (Hgen (zk_out (zgen st) (fst (h_index normalize d seq (zk_in thr st))))) as [H1 H2].
      + reflexivity.
      + cbn [k_step]. change (zk_view thr st) with (absk (zk_in thr st)). rewrite <- A. cbn [fst].
        assert (Et : hthr (fst (h_index normalize d seq (zk_in thr st))) = thr).
        { pose proof (f_equal (fun p => threshold (fst p)) A) as E. cbn [fst absk threshold] in E. rewrite E. apply k_index_threshold. }
        unfold zk_view, absk, zk_out. cbn [zheap zfwd zrev znum]. rewrite Et. reflexivity.
      + apply index_keeps; assumption.
      + split; [exact H1|]. split; [exact H2|]. cbn [zk_out zgen]. lia.
    - destruct (h_unindex_ok d (zk_in thr st) Hh) as [_ A].
      destruct (Hgen (zk_out (zgen st) (h_unindex d (zk_in thr st)))) as [H1 H2].
      + reflexivity.
      + cbn [k_step fst]. change (zk_view thr st) with (absk (zk_in thr st)). rewrite <- A.
        assert (Et : hthr (h_unindex d (zk_in thr st)) = thr).
        { pose proof (f_equal threshold A) as E. cbn [absk threshold] in E. rewrite E. apply k_unindex_threshold. }
        unfold zk_view, absk, zk_out. cbn [zheap zfwd zrev znum]. rewrite Et. reflexivity.
      + apply unindex_keeps; assumption.
      + split; [exact H1|]. split; [exact H2|]. cbn [zk_out zgen]. lia.
    - split; [|split; [reflexivity|reflexivity]]. split.
      + split; [split; cbn; intros; discriminate|]. split; [intros v; cbn; reflexivity|].
        split; [reflexivity|]. split; [intros v w []|]. split; cbn; intros; discriminate.
      + split; [cbn; lia|]. split; [cbn; lia|]. cbn. lia.
    - rewrite (optimize_id st Hi (proj1 (proj2 Hok))). split; [split; [exact Hi|apply krel_refl]|]. split; [reflexivity|lia].
    - split; [split; [exact Hi|apply krel_refl]|]. split; [reflexivity|lia].
  Qed.

  (** ** Transactions *)
  Notation step := (zk_step normalize thr).
  Notation exec := (z_exec (zk_step normalize thr)).
  Notation always := (fun _ _ : W => true).
  Lemma k_okstep_ok st op : k_inv st -> k_okstep st op -> k_inv (step st op) /\ zrel st (step st op).
  Proof. intros H1 H2. apply (zk_step_ok st op H1 H2). Qed.
  Lemma eq_kw : eq_test (@set_same W _).
  Proof. intros x y. apply set_same_eq. Qed.

  (** Every mapping a transaction sees is safe. *)
  Definition safe_ops (ops : list (kop W)) m : Prop :=
    normal_history normalize ops /\
    forall ops1 ops2, ops = ops1 ++ ops2 -> k_safe (fold_left (kw_step normalize) ops1 m).
  Lemma safe_okrun ops st : k_inv st -> safe_ops ops (zrev st) ->
    okrun step k_okstep ops st /\ zrev (exec ops st) = fold_left (kw_step normalize) ops (zrev st) /\
    zgen st <= zgen (exec ops st) /\ (zgen (exec ops st) =? zgen st) = negb (clears_k ops).
  Proof.
    revert st; induction ops as [|o ops IH]; intros st Hi [Hn Hs].
    - cbn. rewrite Z.eqb_refl. split; [exact I|]. split; [reflexivity|]. split; [lia|reflexivity].
    - inversion Hn as [|? ? Hn1 Hn2]; subst.
      assert (Hok : k_okstep st o).
      { split; [exact Hn1|]. split; [apply (Hs [] (o :: ops) eq_refl)|apply (Hs [o] ops eq_refl)]. }
      destruct (zk_step_ok st o Hi Hok) as ([Hi' _] & Er & Eg).
      destruct (IH (step st o) Hi') as (I1 & I2 & I3 & I4).
      { split; [exact Hn2|]. intros ops1 ops2 E. rewrite Er. apply (Hs (o :: ops1) ops2). rewrite E. reflexivity. }
      split; [split; [exact Hok|exact I1]|]. cbn [z_exec fold_left] in *. rewrite Er in I2. split; [exact I2|].
      unfold z_exec in *. unfold clears_k in *. cbn [existsb fold_left]. destruct o; rewrite ?Z.add_0_r in Eg; try (rewrite Eg in *; split; [lia|exact I4]).
      split; [lia|]. cbn [orb negb]. apply Z.eqb_neq. lia.
  Qed.

  Definition safe_schedule (sch : list (nat * list (kop W))) : Prop :=
    forall sch1 i ops sch2, sch = sch1 ++ (i, ops) :: sch2 ->
    forall snap, nth_error (zk_run normalize thr sch1) i = Some snap -> safe_ops ops (zrev snap).
  Notation kvs := (vsinv k_has always k_ok flag).
  Lemma safe_begin cur snap (vs : list zst) i : kvs vs -> nth_error vs i = Some snap -> hd_error vs = Some cur ->
    k_inv (z_begin cur snap).
  Proof.
    intros (c & rest & -> & Hall) H1 H2. injection H2 as ->. destruct (Hall snap) as [Is Rs]; [eapply nth_error_In, H1|].
    apply (begin_inv _ _ _ _ _ _ Is Rs).
  Qed.
  Lemma safe_commit (vs : list zst) i ops st : kvs vs ->
    (forall snap, nth_error vs i = Some snap -> safe_ops ops (zrev snap)) ->
    zk_commit normalize thr vs i ops = Some st ->
    exists cur snap, hd_error vs = Some cur /\ nth_error vs i = Some snap /\ kvs (st :: vs) /\
      committed (cleared_since snap cur) (clears_k ops) (zrev snap) (zrev cur)
                (fold_left (kw_step normalize) ops (zrev snap)) (zrev st).
  Proof.
    intros Hv Hs Hc.
    destruct (commit_ok k_has set_same always k_ok flag step k_okstep eq_kw (fun _ => eq_refl) (fun _ _ => eq_refl) k_okstep_ok
                vs i ops st Hv) as (cur & snap & E1 & E2 & D & Hv').
    { intros c s H1 H2. apply safe_okrun; [eapply safe_begin; eassumption|]. apply (Hs s H1). }
    { exact Hc. }
    exists cur, snap. split; [exact E1|]. split; [exact E2|]. split; [exact Hv'|].
    destruct (safe_okrun ops (z_begin cur snap)) as (_ & Er & _ & Eg); [exact (safe_begin cur snap vs i Hv E2 E1)|apply (Hs snap E2)|].
    cbn [z_begin zrev zgen] in Er, Eg. unfold docs_outcome in D. rewrite Er, Eg in D. unfold cleared_since.
    destruct (zgen cur =? zgen snap), (clears_k ops); cbn [negb] in *; auto. apply merged_committed, D.
  Qed.
  Lemma safe_run sch : safe_schedule sch -> kvs (zk_run normalize thr sch).
  Proof.
    induction sch as [|t sch IH] using rev_ind; intros Hok.
    - apply (new_inv k_has always k_ok flag).
    - assert (Hok' : safe_schedule sch).
      { intros sch1 i ops sch2 E. apply (Hok sch1 i ops (sch2 ++ [t])). rewrite E, <- app_assoc. reflexivity. }
      specialize (IH Hok'). unfold zk_run. rewrite db_run_snoc. unfold db_step. destruct t as [i ops]; cbn [fst snd].
      change (db_run set_same always step sch) with (zk_run normalize thr sch).
      destruct (commit set_same always step (zk_run normalize thr sch) i ops) as [st|] eqn:E; [|exact IH].
      destruct (safe_commit _ i ops st IH) as (_ & _ & _ & _ & H & _); [|exact E|exact H].
      apply (Hok sch i ops []). reflexivity.
  Qed.

End L.

Section Results.
  Context {W : Type} `{OW : Ord W}.
  Variable normalize : list W -> list W.
  Variable thr : Z.
  Notation zst := (zstate W (sset W)).
  Notation run := (zk_run normalize thr).
  Implicit Types (st snap cur : zst) (d : Z) (w : W) (m : smap Z (sset W)) (sch : list (nat * list (kop W))).

  Lemma to_safe sch : normal_schedule normalize sch -> thr <= 1 \/ stays_below normalize thr sch ->
    exists flag, safe_schedule normalize thr flag sch.
  Proof.
    intros Hn Hs. exists (thr <=? 1). intros sch1 i ops sch2 E snap Hsnap. split.
    - unfold normal_schedule in Hn. rewrite E, Forall_app in Hn. destruct Hn as [_ Hn]. inversion Hn; subst. assumption.
    - intros ops1 ops2 Eo. unfold k_safe. destruct (thr <=? 1) eqn:Et; [left; split; [reflexivity|lia]|]. right.
      split; [reflexivity|]. destruct Hs as [Hs|Hs]; [lia|]. apply (Hs _ _ _ _ E _ Hsnap _ _ Eo).
  Qed.

  Lemma keywords_all m : (forall d kw, get m d = Some kw -> is_empty kw = false) ->
    keywords normalize_id (index_all_k m) = m.
  Proof.
    intros Hne. unfold keywords, index_all_k. rewrite <- (of_list_of_elts m) at 2. unfold of_list.
    assert (Hl : forall d kw, In (d, kw) (elts m) -> is_empty kw = false) by (intros d kw Hin; eapply Hne, get_In, Hin).
    revert Hl. generalize (@empty Z (sset W) _). induction (elts m) as [|[d kw] l IH]; intros m0 Hl; [reflexivity|].
    cbn [map fold_left fst snd]. rewrite <- IH by (intros d' kw' Hin; apply (Hl d'); right; exact Hin). f_equal.
    specialize (Hl d kw (or_introl eq_refl)). unfold kw_step.
    destruct (selems kw) as [|x ws] eqn:E.
    - rewrite (proj2 (is_empty_mem kw)) in Hl; [discriminate|]. intros k. destruct (mem k kw) eqn:Ek; [|reflexivity].
      apply selems_In in Ek. rewrite E in Ek. destruct Ek.
    - unfold normalize_id. rewrite <- E, set_of_list_selems. reflexivity.
  Qed.

  Lemma zk_consistent sch st : normal_schedule normalize sch -> thr <= 1 \/ stays_below normalize thr sch -> In st (run sch) ->
    same_answers normalize (zk_view thr st) (k_run normalize_id (index_all_k (zrev st))) /\
    keywords normalize_id (index_all_k (zrev st)) = zrev st.
  Proof.
    intros Hn Hs Hin. destruct (to_safe sch Hn Hs) as [flag Hsafe].
    destruct (safe_run normalize thr flag sch Hsafe) as (cur & rest & E & Hall). destruct (Hall st Hin) as [Hi _].
    apply (k_inv_kinv thr flag) in Hi as (_ & Hk & _). pose proof (keywords_all (zrev st)) as Ek.
    specialize (Ek (proj2 (proj2 (proj2 (proj2 Hk))))). split; [|exact Ek].
    eapply kinv_same; [exact Hk|]. rewrite <- Ek at 2. apply k_run_inv. apply id_normal.
  Qed.

  Lemma zk_commit_ok sch i ops st : normal_schedule normalize (sch ++ [(i, ops)]) ->
    thr <= 1 \/ stays_below normalize thr (sch ++ [(i, ops)]) ->
    zk_commit normalize thr (run sch) i ops = Some st ->
    exists cur snap, hd_error (run sch) = Some cur /\ nth_error (run sch) i = Some snap /\
      committed (cleared_since snap cur) (clears_k ops) (zrev snap) (zrev cur)
                (fold_left (kw_step normalize) ops (zrev snap)) (zrev st).
  Proof.
    intros Hn Hs Hc. destruct (to_safe _ Hn Hs) as [flag Hsafe].
    assert (Hsafe' : safe_schedule normalize thr flag sch).
    { intros sch1 j o sch2 E. apply (Hsafe sch1 j o (sch2 ++ [(i, ops)])). rewrite E, <- app_assoc. reflexivity. }
    destruct (safe_commit normalize thr flag (run sch) i ops st (safe_run _ _ _ _ Hsafe')) as (cur & snap & E1 & E2 & _ & D).
    { apply (Hsafe sch i ops []). reflexivity. }
    { exact Hc. }
    eauto.
  Qed.

  (** ** Different documents *)
  Lemma fold_same_docs_k (ops : list (kop W)) m1 m2 d : clears_k ops = false ->
    (In d (docs_of_k ops) -> get m1 d = get m2 d ->
       get (fold_left (kw_step normalize) ops m1) d = get (fold_left (kw_step normalize) ops m2) d) /\
    (~ In d (docs_of_k ops) -> get (fold_left (kw_step normalize) ops m1) d = get m1 d).
  Proof.
    intros Hc. assert (Hone : forall o m m', (match o with KClear => true | _ => false end) = false -> get m d = get m' d ->
      get (kw_step normalize m o) d = get (kw_step normalize m' o) d).
    { intros [d' [|[|x l]]|d'| | |n] m m' Ho E; cbn [kw_step]; try discriminate; rewrite ?get_del, ?get_put, ?E; reflexivity. }
    split.
    - intros _. revert m1 m2. induction ops as [|o ops IH]; intros m1 m2 E; [exact E|].
      unfold clears_k in Hc; cbn [existsb] in Hc. apply orb_false_iff in Hc as [Ho Hc]. cbn [fold_left]. apply (IH Hc), Hone; assumption.
    - revert m1. induction ops as [|o ops IH]; intros m1 Hd; [reflexivity|].
      unfold clears_k in Hc; cbn [existsb] in Hc. apply orb_false_iff in Hc as [Ho Hc]. cbn [fold_left].
      unfold docs_of_k in Hd; cbn [map concat] in Hd. rewrite in_app_iff in Hd.
      rewrite (IH Hc) by tauto. destruct o as [d' [|[|x l]]|d'| | |n]; cbn [kw_step]; try discriminate; try reflexivity;
        rewrite ?get_del, ?get_put; destruct (eqb d d') eqn:E; try reflexivity; apply eqb_eq in E; subst; destruct Hd; left; left; reflexivity.
  Qed.
  Lemma zk_serial sch i ops st cur snap : normal_schedule normalize (sch ++ [(i, ops)]) ->
    thr <= 1 \/ stays_below normalize thr (sch ++ [(i, ops)]) ->
    zk_commit normalize thr (run sch) i ops = Some st ->
    hd_error (run sch) = Some cur -> nth_error (run sch) i = Some snap ->
    cleared_since snap cur = false -> clears_k ops = false ->
    (forall d, In d (docs_of_k ops) -> get (zrev cur) d = get (zrev snap) d) ->
    zrev st = fold_left (kw_step normalize) ops (zrev cur).
  Proof.
    intros Hn Hs Hc E1 E2 Hcl Hk Hd. destruct (zk_commit_ok _ _ _ _ Hn Hs Hc) as (cur' & snap' & E1' & E2' & D).
    assert (cur' = cur) by congruence. assert (snap' = snap) by congruence. subst. rewrite Hcl, Hk in D. cbn in D.
    apply smap_ext. intros d. destruct (D d) as [D1 D2].
    destruct (fold_same_docs_k ops (zrev snap) (zrev cur) d Hk) as [F1 F2].
    destruct (fold_same_docs_k ops (zrev cur) (zrev snap) d Hk) as [_ F2'].
    destruct (in_dec Z.eq_dec d (docs_of_k ops)) as [Hin|Hin].
    - rewrite <- (F1 Hin (eq_sym (Hd d Hin))).
      destruct (opt_same set_same (get (fold_left (kw_step normalize) ops (zrev snap)) d) (get (zrev snap) d)) eqn:E.
      + apply (opt_same_eq _ eq_kw) in E. rewrite (D1 E), E. apply Hd, Hin.
      + apply D2. intros H. apply (opt_same_eq _ eq_kw) in H. congruence.
    - rewrite (F2' Hin). apply D1, F2, Hin.
  Qed.

  (** ** One transaction after the other, with any threshold *)
  Notation step := (zk_step normalize thr).
  Lemma plain_step st o : hwf (zs st) -> (match o with KThreshold _ => true | _ => false end) = false ->
    hwf (zs (step st o)) /\ zk_view thr (step st o) = fst (k_step normalize (zk_view thr st) o).
  Proof.
    intros Hw Ho. assert (Hh : hwf (hs (zk_in thr st))) by exact Hw.
    destruct o as [d seq|d| | |n]; cbn [zk_step k_step fst]; [| | | |discriminate].
    - destruct (h_index_ok normalize d seq (zk_in thr st) Hh) as [[G _] A]. split; [exact G|].
      change (zk_view thr st) with (absk (zk_in thr st)). rewrite <- A. cbn [fst].
      assert (Et : hthr (fst (h_index normalize d seq (zk_in thr st))) = thr).
      { pose proof (f_equal (fun p => threshold (fst p)) A) as E. cbn [fst absk threshold] in E. rewrite E. apply k_index_threshold. }
      unfold zk_view, absk, zk_out. cbn [zheap zfwd zrev znum]. rewrite Et. reflexivity.
    - destruct (h_unindex_ok d (zk_in thr st) Hh) as [[G _] A]. split; [exact G|].
      change (zk_view thr st) with (absk (zk_in thr st)). rewrite <- A.
      assert (Et : hthr (h_unindex d (zk_in thr st)) = thr).
      { pose proof (f_equal threshold A) as E. cbn [absk threshold] in E. rewrite E. apply k_unindex_threshold. }
      unfold zk_view, absk, zk_out. cbn [zheap zfwd zrev znum]. rewrite Et. reflexivity.
    - split; [split; cbn; intros; discriminate|]. unfold zk_view, k_clear. cbn [z_clear zheap zfwd zrev znum threshold].
      f_equal. apply elts_inj. reflexivity.
    - destruct (h_optimize_ok (zk_in thr st) Hh) as [[G _] A]. split; [exact G|].
      change (zk_view thr st) with (absk (zk_in thr st)). rewrite <- A.
      assert (Et : hthr (h_optimize (zk_in thr st)) = thr) by (unfold h_optimize; destruct (fold_left _ _ _); reflexivity).
      unfold zk_view, absk, zk_out. cbn [zheap zfwd zrev znum]. rewrite Et. reflexivity.
  Qed.
  Lemma plain_exec ops st : hwf (zs st) -> sets_threshold ops = false ->
    hwf (zs (z_exec step ops st)) /\
    zk_view thr (z_exec step ops st) = fold_left (fun s o => fst (k_step normalize s o)) ops (zk_view thr st).
  Proof.
    revert st; induction ops as [|o ops IH]; intros st Hw Ho; [split; [exact Hw|reflexivity]|].
    unfold sets_threshold in Ho; cbn [existsb] in Ho. apply orb_false_iff in Ho as [H1 H2].
    destruct (plain_step st o Hw H1) as [Hw' Ev]. destruct (IH _ Hw' H2) as [I1 I2].
    cbn [z_exec fold_left] in *. unfold z_exec in *. cbn [fold_left]. rewrite <- Ev. auto.
  Qed.
  Lemma zk_one_client (txs : list (list (kop W))) : Forall (fun ops => sets_threshold ops = false) txs ->
    exists st, hd_error (run (map (pair 0%nat) txs)) = Some st /\
      zk_view thr st = k_run normalize (KThreshold thr :: concat txs).
  Proof.
    intros Hall.
    assert (H : exists st rest, run (map (pair 0%nat) txs) = st :: rest /\ hwf (zs st) /\
                 zk_view thr st = k_run normalize (KThreshold thr :: concat txs)).
    { induction txs as [|ops txs IH] using rev_ind.
      - exists z_new, []. split; [reflexivity|]. split; [split; cbn; intros; discriminate|].
        unfold zk_view, k_run. cbn. f_equal. apply elts_inj. reflexivity.
      - apply Forall_app in Hall as [Ha Hb]. inversion Hb as [|? ? Ho _]; subst.
        destruct (IH Ha) as (cur & rest & E & Hw & Ev). clear IH.
        destruct (plain_exec ops cur Hw Ho) as [Hw' Ev'].
        destruct (merge_alone set_same (fun _ _ => true) eq_kw cur (z_exec step ops cur) (fun _ _ _ _ => eq_refl)) as [st Em].
        assert (Ec : zk_commit normalize thr (cur :: rest) 0 ops = Some st).
        { unfold zk_commit, commit. cbn [nth_error]. replace (z_begin cur cur) with cur; [exact Em|].
          destruct cur as [[c n] f r k g]. reflexivity. }
        exists st, (cur :: rest). rewrite map_app. cbn [map]. unfold zk_run in *. rewrite db_run_snoc, E. unfold db_step. cbn [fst snd].
        unfold zk_commit in Ec. rewrite Ec. split; [reflexivity|].
        destruct (merge_alone_same _ _ eq_kw _ _ _ Em) as (F1 & F2 & F3 & _ & F5 & F6). split.
        + destruct Hw' as [W1 W2]. unfold zs in *. cbn [fst snd] in *. rewrite F1. split; cbn [fst snd].
          * intros v x Hv. apply W1 in Hv. lia.
          * exact W2.
        + transitivity (zk_view thr (z_exec step ops cur)).
          * unfold zk_view. rewrite F1, F2, F3. f_equal. apply smap_ext. intros v. rewrite !get_mmap.
            destruct (get _ v); [rewrite F6|]; reflexivity.
          * rewrite Ev', Ev, concat_app. cbn [concat]. rewrite app_nil_r. unfold k_run. cbn [fold_left]. rewrite fold_left_app. reflexivity. }
    destruct H as (st & rest & E & _ & Ev). exists st. rewrite E. auto.
  Qed.

  (** ** What a transaction sees, and what it does if nobody else has committed *)
  Lemma zk_isolated sch cur snap i ops : normal_schedule normalize sch -> thr <= 1 \/ stays_below normalize thr sch ->
    sets_threshold ops = false -> nth_error (run sch) i = Some snap -> hd_error (run sch) = Some cur ->
    zk_view thr (z_exec step ops (z_begin cur snap)) = fold_left (fun s o => fst (k_step normalize s o)) ops (zk_view thr snap).
  Proof.
    intros Hn Ht Ho Hs Hc. destruct (to_safe sch Hn Ht) as [flag Hsafe]. pose proof (safe_run normalize thr flag sch Hsafe) as Hv.
    pose proof (safe_begin flag cur snap _ i Hv Hs Hc) as Hi. apply (k_inv_kinv thr flag) in Hi as (Hw & _).
    destruct (plain_exec ops (z_begin cur snap) Hw Ho) as [_ E]. rewrite E. f_equal.
  Qed.
  Lemma zk_alone sch ops : normal_schedule normalize sch -> thr <= 1 \/ stays_below normalize thr sch ->
    sets_threshold ops = false -> exists cur st, hd_error (run sch) = Some cur /\ zk_commit normalize thr (run sch) 0 ops = Some st /\
      zk_view thr st = fold_left (fun s o => fst (k_step normalize s o)) ops (zk_view thr cur).
  Proof.
    intros Hn Ht Ho. destruct (to_safe sch Hn Ht) as [flag Hsafe]. destruct (safe_run normalize thr flag sch Hsafe) as (cur & rest & E & Hall).
    assert (Hw : hwf (zs cur)). { destruct (Hall cur) as [Hi _]; [rewrite E; left; reflexivity|]. apply (k_inv_kinv thr flag) in Hi as (Hw & _). exact Hw. }
    destruct (plain_exec ops cur Hw Ho) as [_ Ev].
    destruct (merge_alone set_same (fun _ _ => true) eq_kw cur (z_exec step ops cur) (fun _ _ _ _ => eq_refl)) as [st Em].
    exists cur, st. rewrite E. split; [reflexivity|]. split.
    { unfold zk_commit, commit. cbn [nth_error]. replace (z_begin cur cur) with cur; [exact Em|]. destruct cur as [[c n] f r k g]. reflexivity. }
    rewrite <- Ev. destruct (merge_alone_same _ _ eq_kw _ _ _ Em) as (_ & F2 & F3 & _ & F5 & F6).
    destruct (merge_alone_same _ _ eq_kw _ _ _ Em) as (F1 & _).
    unfold zk_view. rewrite F1, F2, F3. f_equal. apply smap_ext. intros v. rewrite !get_mmap.
    destruct (get _ v); [rewrite F6|]; reflexivity.
  Qed.
End Results.
