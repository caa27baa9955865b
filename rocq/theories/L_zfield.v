(** * Concurrent transactions on the field index *)
From Verif Require Import S_field L_field L_kwheap M_zodb S_zodb L_zodb SMap Ord.

Section L.
  Context {T : Type} `{OT : Ord T}.
  Notation pyval := (pyval T).
  Notation zst := (zstate pyval pyval).
  Implicit Types (st snap cur : zst) (v w : pyval) (d x l : Z) (m : smap Z pyval).

  Definition f_has (r v : pyval) : bool := eqb v r.
  Definition f_inv : zst -> Prop := zinv f_has key_ok (fun _ => True) true.

  Lemma get_view st v : get (fwd (zf_view st)) v = option_map (fun l => snd (load (zheap st) l)) (get (zfwd st) v).
  Proof. unfold zf_view; cbn [fwd]. rewrite get_mmap. destruct (get (zfwd st) v); reflexivity. Qed.

  Lemma holds_docs m d v : holds f_has m d v = mem d (docs_with m v).
  Proof. rewrite mem_docs_with. reflexivity. Qed.

  Lemma keys_view st v : In v (keys (fwd (zf_view st))) <-> In v (keys (zfwd st)).
  Proof. unfold zf_view; cbn [fwd]. rewrite keys_mmap. reflexivity. Qed.

  (** The consistency of the stored objects and that of the index a reader sees. *)
  Lemma f_inv_finv st : f_inv st <->
    hwf (zs st) /\ finv (zf_view st) (zrev st) /\ (forall v x, get (zfwd st) v = Some x -> fst (load (zheap st) x) = true).
  Proof.
    split.
    - intros (H1 & H2 & H3 & H4 & _ & H6). split; [exact H1|]. split; [|exact H6].
      assert (Hp : forall v, get (fwd (zf_view st)) v = posting (zrev st) v).
      { intros v. rewrite get_view. specialize (H2 v). cbn [snd fst zs] in H2. unfold posting.
        destruct (get (zfwd st) v) as [x|]; cbn [option_map].
        - destruct H2 as [Hn Hm]. assert (E : docs_with (zrev st) v = snd (load (zheap st) x)).
          { apply sset_ext. intros d. rewrite Hm, holds_docs. reflexivity. }
          rewrite E, Hn. reflexivity.
        - destruct (is_empty (docs_with (zrev st) v)) eqn:E; [reflexivity|].
          apply is_empty_false in E as (d & u & Hd).
          assert (Ht : mem d (docs_with (zrev st) v) = true) by (unfold mem; rewrite Hd; reflexivity).
          rewrite <- holds_docs, H2 in Ht. discriminate. }
      split; [reflexivity|]. split; [exact H3|]. split; [exact Hp|].
      assert (Hin : forall d w, get (zrev st) d = Some w -> In w (keys (zfwd st))).
      { intros d w Hd. apply keys_view, keys_In. rewrite Hp. unfold posting.
        destruct (is_empty (docs_with (zrev st) w)) eqn:E; [|eauto].
        pose proof (proj1 (is_empty_mem _) E d) as Hx. rewrite mem_docs_with, Hd, eqb_refl in Hx. discriminate. }
      intros d w d' w' Hd Hd'. apply H4; eapply Hin; eassumption.
    - intros (H1 & Hi & H6). pose proof Hi as (_ & H3 & Hp & Hh). split; [exact H1|]. split; [|split; [exact H3|split; [|split; [auto|exact H6]]]].
      + intros v. cbn [snd fst zs]. specialize (Hp v). rewrite get_view in Hp. unfold posting in Hp.
        destruct (get (zfwd st) v) as [x|]; cbn [option_map] in Hp.
        * destruct (is_empty (docs_with (zrev st) v)) eqn:E; [discriminate|]. injection Hp as ->.
          split; [exact E|]. intros d. rewrite holds_docs. reflexivity.
        * destruct (is_empty (docs_with (zrev st) v)) eqn:E; [|discriminate].
          intros d. rewrite holds_docs. apply is_empty_mem, E.
      + intros v w Hv Hw. apply keys_view, (posting_keys _ _ _ Hi) in Hv as [d Hd].
        apply keys_view, (posting_keys _ _ _ Hi) in Hw as [d' Hd']. eapply Hh; eassumption.
  Qed.

  (** ** The code with object identities does what the code without does *)
  Definition keeps st st' : Prop := hwf (zs st') /\ evolves (zs st) (zs st') /\ zgen st' = zgen st.
  Definition flags st : Prop := forall v x, get (zfwd st) v = Some x -> fst (load (zheap st) x) = true.

  Lemma bt_get_view st v : bt_get (fwd (zf_view st)) v =
    do o <- bt_get (zfwd st) v; Ok (option_map (fun l => snd (load (zheap st) l)) o).
  Proof.
    unfold bt_get. replace (keys (fwd (zf_view st))) with (keys (zfwd st)) by (unfold zf_view; cbn [fwd]; rewrite keys_mmap; reflexivity).
    destruct (forallb (key_ok v) (keys (zfwd st))); [|reflexivity]. cbn [bind]. rewrite get_view. reflexivity.
  Qed.

  Definition sets_of (m : smap pyval obj) : smap pyval (sset Z) := mmap (fun _ p => snd p) m.
  Lemma sets_put v p (m : smap pyval obj) : sets_of (put v p m) = put v (snd p) (sets_of m).
  Proof.
    apply smap_ext. intros k. unfold sets_of. rewrite get_mmap, !get_put, get_mmap. destruct (eqb k v); reflexivity.
  Qed.
  Lemma sets_del v (m : smap pyval obj) : sets_of (del v m) = del v (sets_of m).
  Proof.
    apply smap_ext. intros k. unfold sets_of. rewrite get_mmap, !get_del, get_mmap. destruct (eqb k v); reflexivity.
  Qed.
  Lemma view_abs st : zf_view st = mkF (sets_of (absf (zs st))) (zrev st) (znum st).
  Proof.
    unfold zf_view. f_equal. apply smap_ext. intros k. unfold sets_of. rewrite !get_mmap, get_absf. cbn [snd fst zs].
    destruct (get (zfwd st) k); reflexivity.
  Qed.

  Lemma zf_unindex_ok d st : hwf (zs st) -> flags st ->
    (zf_view (fst (zf_unindex d st)), snd (zf_unindex d st)) = f_unindex d (zf_view st) /\
    keeps st (fst (zf_unindex d st)) /\ flags (fst (zf_unindex d st)).
  Proof.
    intros Hw Hfl. unfold zf_unindex, f_unindex. change (rev_ix (zf_view st)) with (zrev st).
    assert (Hk : keeps st st) by (split; [exact Hw|split; [apply evolves_refl|reflexivity]]).
    destruct (get (zrev st) d) as [v|]; [|split; [reflexivity|split; [exact Hk|exact Hfl]]].
    rewrite bt_get_view. destruct (bt_get (zfwd st) v) as [[l|]|e] eqn:Eb; cbn [bind option_map].
    2:{ split; [reflexivity|split; [exact Hk|exact Hfl]]. }
    2:{ split; [reflexivity|split; [exact Hk|exact Hfl]]. }
    assert (Hv : get (zfwd st) v = Some l).
    { unfold bt_get in Eb. destruct (forallb _ _); [|discriminate]. congruence. }
    pose proof (Hfl v l Hv) as Hfl'.
    destruct (load (zheap st) l) as [kind els] eqn:El. cbn [fst snd] in *. subst kind.
    destruct (mem d els) eqn:Em.
    2:{ split; [reflexivity|split; [exact Hk|exact Hfl]]. }
    cbn [fst snd].
    pose proof (evolves_store (zs st) v l (srem d els) Hw Hv) as V1.
    pose proof (proj1 (good_store (zs st) v l (true, srem d els) Hw Hv)) as W1.
    pose proof (abs_store (zs st) v l (true, srem d els) Hw Hv) as A1.
    cbn [fst snd zs] in V1, W1, A1. rewrite El in V1. cbn [fst] in V1.
    assert (F1 : forall fw : smap pyval Z, (forall w x, get fw w = Some x -> get (zfwd st) w = Some x) ->
      forall w x, get fw w = Some x -> fst (load (store l (true, srem d els) (zheap st)) x) = true).
    { intros fw Hsub w x Hx. apply Hsub in Hx. rewrite load_store. destruct (eqb x l); [reflexivity|]. eapply Hfl; eassumption. }
    destruct (is_empty (srem d els)) eqn:Ee.
    - pose proof (evolves_drop (store l (true, srem d els) (zheap st), zfwd st) v l W1 Hv) as V2.
      pose proof (proj1 (good_del _ v W1)) as W2. pose proof (abs_del (store l (true, srem d els) (zheap st), zfwd st) v) as A2.
      cbn [fst snd zs] in V2, W2, A2. rewrite load_store, eqb_refl in V2. specialize (V2 Ee).
      split; [|split].
      + f_equal. rewrite (view_abs (mkZ _ _ _ _ _)). unfold zs at 1. cbn [zheap zfwd zrev znum].
 rewrite A2, A1, sets_del, sets_put, del_put.
        rewrite view_abs. reflexivity.
      + split; [exact W2|split; [|reflexivity]]. eapply evolves_trans; [exact V1|exact V2].
      + intros w x. cbn [zfwd zheap]. apply F1. intros w' x'. rewrite get_del. destruct (eqb w' v); [discriminate|auto].
    - split; [|split].
      + f_equal. rewrite (view_abs (mkZ _ _ _ _ _)). unfold zs at 1. cbn [zheap zfwd zrev znum]. rewrite A1, sets_put.
        rewrite view_abs. reflexivity.
      + split; [exact W1|split; [exact V1|reflexivity]].
      + intros w x. cbn [zfwd zheap]. apply F1. auto.
  Qed.

  Lemma zf_insert_ok d v st : hwf (zs st) -> flags st ->
    (zf_view (fst (zf_insert d v st)), snd (zf_insert d v st)) = f_insert d v (zf_view st) /\
    keeps st (fst (zf_insert d v st)) /\ flags (fst (zf_insert d v st)).
  Proof.
    intros Hw Hfl. unfold zf_insert, f_insert. rewrite bt_get_view.
    destruct (bt_get (zfwd st) v) as [found|e] eqn:Eb; cbn [bind].
    2:{ split; [reflexivity|]. split; [|exact Hfl]. split; [exact Hw|split; [apply evolves_refl|reflexivity]]. }
    assert (Hv : get (zfwd st) v = found).
    { unfold bt_get in Eb. destruct (forallb _ _); [|discriminate]. congruence. }
    set (s1 := match found with Some _ => zs st | None => (fst (alloc (true, empty) (zheap st)), put v (next (zheap st)) (zfwd st)) end).
    set (l := match found with Some l => l | None => next (zheap st) end).
    assert (E1 : match found with
      | Some l => (zheap st, zfwd st, l)
      | None => let '(hp', l) := alloc (true, empty) (zheap st) in (hp', put v l (zfwd st), l)
      end = (fst s1, snd s1, l)) by (unfold s1, l; destruct found; reflexivity).
    rewrite E1. clear E1.
    assert (W1 : hwf s1 /\ evolves (zs st) s1).
    { unfold s1. destruct found; [split; [exact Hw|apply evolves_refl]|]. split.
      - apply (good_put (zs st) v (true, empty) Hw).
      - apply (evolves_new (zs st) v (true, empty) Hw Hv). }
    destruct W1 as [W1 V1].
    assert (Hl : get (snd s1) v = Some l).
    { unfold s1, l. destruct found; cbn [snd zs]; [exact Hv|]. rewrite get_put, eqb_refl. reflexivity. }
    assert (F1 : forall w x, get (snd s1) w = Some x -> fst (load (fst s1) x) = true).
    { unfold s1. destruct found; [exact Hfl|]. cbn [fst snd]. intros w x. rewrite get_put, load_alloc.
      destruct (eqb w v); [intros [= <-]; rewrite eqb_refl; reflexivity|]. intros Hx. destruct (eqb x (next (zheap st))); [reflexivity|].
      eapply Hfl; eassumption. }
    assert (A0 : snd (load (fst s1) l) = match option_map (fun l => snd (load (zheap st) l)) found with None => empty | Some s0 => s0 end).
    { unfold s1, l. destruct found; [reflexivity|]. cbn [fst]. rewrite load_alloc, eqb_refl. reflexivity. }
    assert (A1 : forall p, put v p (absf s1) = put v p (absf (zs st))).
    { intros p. unfold s1. destruct found; [reflexivity|].
      pose proof (abs_put (zs st) v (true, empty) Hw) as E. cbn [fst snd zs] in E. rewrite E, put_put. reflexivity. }
    clearbody s1 l. pose proof (F1 v l Hl) as Hk. destruct (load (fst s1) l) as [kind els] eqn:El. cbn [fst snd] in *. subst kind els.
    set (els := match option_map _ found with None => _ | Some _ => _ end) in *.
    pose proof (evolves_store s1 v l (sadd d els) W1 Hl) as V2. rewrite El in V2. cbn [fst] in V2.
    pose proof (proj1 (good_store s1 v l (true, sadd d els) W1 Hl)) as W2.
    pose proof (abs_store s1 v l (true, sadd d els) W1 Hl) as A2.
    split; [|split].
    - f_equal. rewrite (view_abs (mkZ _ _ _ _ _)). unfold zs at 1. cbn [zheap zfwd zrev znum]. rewrite A2, A1, sets_put, view_abs. reflexivity.
    - split; [exact W2|split; [|reflexivity]]. eapply evolves_trans; [exact V1|exact V2].
    - intros w x. cbn [zfwd zheap]. intros Hx. rewrite load_store. destruct (eqb x l); [reflexivity|]. eapply F1; eassumption.
  Qed.

  Lemma keeps_trans a b c : keeps a b -> keeps b c -> keeps a c.
  Proof.
    intros (_ & H1 & H2) (H3 & H4 & H5). split; [exact H3|split; [|congruence]]. eapply evolves_trans; eassumption.
  Qed.
  Lemma zf_index_ok d v st : hwf (zs st) -> flags st ->
    (zf_view (fst (zf_index d v st)), snd (zf_index d v st)) = f_index d v (zf_view st) /\
    keeps st (fst (zf_index d v st)) /\ flags (fst (zf_index d v st)).
  Proof.
    intros Hw Hfl. unfold zf_index, f_index. change (rev_ix (zf_view st)) with (zrev st).
    assert (Hk : keeps st st) by (split; [exact Hw|split; [apply evolves_refl|reflexivity]]).
    destruct (mem d (zrev st)); [|apply zf_insert_ok; assumption].
    rewrite bt_get_view. destruct (bt_get (zfwd st) v) as [found|e]; cbn [bind].
    2:{ split; [reflexivity|split; [exact Hk|exact Hfl]]. }
    replace (match option_map (fun l => snd (load (zheap st) l)) found with Some s0 => mem d s0 | None => false end)
      with (match found with Some l => mem d (snd (load (zheap st) l)) | None => false end) by (destruct found; reflexivity).
    destruct (match found with Some l => mem d (snd (load (zheap st) l)) | None => false end).
    { split; [reflexivity|split; [exact Hk|exact Hfl]]. }
    destruct (zf_unindex_ok d st Hw Hfl) as (E & K & F). destruct (f_unindex d (zf_view st)) as [fs r'].
    destruct (zf_unindex d st) as [st' r]. cbn [fst snd] in E, K, F. injection E as <- <-. destruct r as [u|e].
    - destruct (zf_insert_ok d v st' (proj1 K) F) as (E' & K' & F'). split; [exact E'|]. split; [|exact F'].
      eapply keeps_trans; eassumption.
    - split; [reflexivity|split; [exact K|exact F]].
  Qed.

  Lemma zf_step_ok st (op : fop T) : f_inv st ->
    f_inv (zf_step st op) /\ zrel st (zf_step st op) /\
    zf_view (zf_step st op) = fst (f_step (zf_view st) op) /\ zrev (zf_step st op) = current_step (zrev st) op /\
    zgen (zf_step st op) = zgen st + (match op with FClear => 1 | _ => 0 end).
  Proof.
    intros Hi. apply f_inv_finv in Hi as (Hw & Hf & Hfl).
    assert (Hgen : forall st', zf_view st' = fst (f_step (zf_view st) op) -> keeps st st' -> flags st' ->
      f_inv st' /\ zrel st st' /\ zf_view st' = fst (f_step (zf_view st) op) /\ zrev st' = current_step (zrev st) op).
    { intros st' E (K1 & K2 & K3) F. pose proof (f_step_inv _ _ op Hf) as Hf'. rewrite <- E in Hf'.
      assert (Er : zrev st' = current_step (zrev st) op) by apply Hf'.
      split; [|split; [|split; [exact E|exact Er]]].
      - apply f_inv_finv. split; [exact K1|]. split; [|exact F]. rewrite Er. exact Hf'.
      - split; [lia|]. split; [apply K2|]. intros _. exact K2. }
    destruct op as [d v|d|]; cbn [zf_step].
    - destruct (zf_index_ok d v st Hw Hfl) as (E & K & F). apply (f_equal fst) in E.
      destruct (Hgen _ E K F) as (? & ? & ? & ?). destruct K as (_ & _ & Kg).
      split; [assumption|]. split; [assumption|]. split; [assumption|]. split; [assumption|]. lia.
    - destruct (zf_unindex_ok d st Hw Hfl) as (E & K & F). apply (f_equal fst) in E.
      destruct (Hgen _ E K F) as (? & ? & ? & ?). destruct K as (_ & _ & Kg).
      split; [assumption|]. split; [assumption|]. split; [assumption|]. split; [assumption|]. lia.
    - assert (Ec : zf_view (z_clear st) = f_clear).
      { unfold zf_view, z_clear, f_clear; cbn [zfwd zrev znum zheap]. f_equal. apply elts_inj. reflexivity. }
      split; [|split; [|split; [exact Ec|split; [reflexivity|reflexivity]]]].
      + apply f_inv_finv. split; [|split].
        * split; cbn; intros; discriminate.
        * rewrite Ec. exact finv_clear.
        * cbn; intros; discriminate.
      + split; [cbn; lia|split; [cbn; lia|]]. cbn; intros; lia.
  Qed.

  (** ** Committed versions *)
  Definition any (_ : zst) (_ : fop T) : Prop := True.
  Lemma okrun_any ops st : okrun zf_step any ops st.
  Proof. revert st; induction ops as [|o ops IH]; intros st; cbn; [exact I|]. split; [exact I|apply IH]. Qed.
  Lemma eq_pyval : eq_test (@eqb pyval _).
  Proof. intros x y. apply eqb_eq. Qed.
  Lemma key_ok_refl v : key_ok v v = true.
  Proof. destruct v; reflexivity. Qed.
  Lemma step_ok_any st op : f_inv st -> any st op -> f_inv (zf_step st op) /\ zrel st (zf_step st op).
  Proof. intros Hi _. destruct (zf_step_ok st op Hi) as (H1 & H2 & _). auto. Qed.

  Lemma zf_run_ok sch : vsinv f_has key_ok (fun _ => True) true (zf_run sch : list zst).
  Proof.
    apply (db_ok f_has eqb key_ok (fun _ => True) true zf_step any eq_pyval key_ok_refl key_ok_sym step_ok_any).
    intros sch1 i ops sch2 _ cur snap _ _. apply okrun_any.
  Qed.
  Lemma zf_exec_ok ops st : f_inv st ->
    f_inv (z_exec zf_step ops st) /\
    zf_view (z_exec zf_step ops st) = fold_left (fun s o => fst (f_step s o)) ops (zf_view st) /\
    zrev (z_exec zf_step ops st) = fold_left current_step ops (zrev st) /\
    zgen st <= zgen (z_exec zf_step ops st) /\
    (zgen (z_exec zf_step ops st) =? zgen st) = negb (clears_f ops).
  Proof.
    revert st; induction ops as [|o ops IH]; intros st Hi.
    - cbn. rewrite Z.eqb_refl. split; [exact Hi|]. split; [reflexivity|]. split; [reflexivity|]. split; [lia|reflexivity].
    - destruct (zf_step_ok st o Hi) as (Hi' & _ & Ev & Er & Eg). destruct (IH _ Hi') as (I1 & I2 & I3 & I4 & I5).
      change (z_exec zf_step (o :: ops) st) with (z_exec zf_step ops (zf_step st o)).
      cbn [fold_left]. rewrite I2, I3, Ev, Er. split; [exact I1|]. split; [reflexivity|]. split; [reflexivity|].
      split; [destruct o; lia|]. unfold clears_f; cbn [existsb]. fold (clears_f ops).
      destruct o; cbn [orb negb]; rewrite Eg in *; rewrite ?Z.add_0_r in *; try exact I5.
      apply Z.eqb_neq. lia.
  Qed.

  Lemma build_get (l : list (Z * pyval)) m0 m : (forall d v, In (d, v) l -> get m d = Some v) ->
    (forall d v, get m0 d = Some v -> get m d = Some v) -> homog m ->
    fold_left current_step (map (fun p => FIndex (fst p) (snd p)) l) m0 = fold_left (fun m kv => put (fst kv) (snd kv) m) l m0.
  Proof.
    revert m0; induction l as [|[d v] l IH]; intros m0 Hl H0 Hh; [reflexivity|]. cbn [map fold_left current_step fst snd].
    assert (E : forallb (key_ok v) (vals m0) = true).
    { apply orderable_vals. intros d' w Hw. eapply Hh; [apply Hl; left; reflexivity|apply H0, Hw]. }
    rewrite E. apply IH; auto.
    - intros d' v' Hin. apply Hl. right; exact Hin.
    - intros d' v'. rewrite get_put. destruct (eqb d' d) eqn:Ed; [|apply H0]. apply eqb_eq in Ed; subst.
      intros [= <-]. apply Hl. left; reflexivity.
  Qed.
  Lemma current_all m : homog m -> current (index_all m) = m.
  Proof.
    intros Hh. unfold current, index_all. rewrite (build_get (elts m) empty m).
    - apply of_list_of_elts.
    - intros d v. apply get_In.
    - intros d v. rewrite get_empty. discriminate.
    - exact Hh.
  Qed.

  Lemma zf_consistent sch st : In st (zf_run sch) ->
    f_inv st /\ zf_view st = f_run (index_all (zrev st)) /\ current (index_all (zrev st)) = zrev st.
  Proof.
    intros Hin. destruct (zf_run_ok sch) as (cur & rest & E & Hall). destruct (Hall st Hin) as [Hi _].
    split; [exact Hi|]. apply f_inv_finv in Hi as (_ & Hf & _). pose proof (current_all (zrev st)) as Hc.
    split; [|apply Hc, Hf]. eapply finv_unique; [exact Hf|]. rewrite <- Hc at 2 by apply Hf. apply f_run_inv.
  Qed.

  Lemma begin_view cur snap : zf_view (z_begin cur snap) = zf_view snap.
  Proof. reflexivity. Qed.

  Lemma zf_commit_ok sch i ops st : zf_commit (zf_run sch) i ops = Some st ->
    exists cur snap, hd_error (zf_run sch) = Some cur /\ nth_error (zf_run sch) i = Some snap /\
      committed (cleared_since snap cur) (clears_f ops) (zrev snap) (zrev cur)
                (fold_left current_step ops (zrev snap)) (zrev st).
  Proof.
    intros Hc. destruct (zf_run_ok sch) as (cur & rest & E & Hall).
    destruct (commit_ok f_has eqb key_ok (fun _ => True) true zf_step any eq_pyval key_ok_refl key_ok_sym step_ok_any
                (zf_run sch) i ops st (zf_run_ok sch)) as (cur' & snap & E1 & E2 & D & _).
    { intros c s _ _. apply okrun_any. }
    { exact Hc. }
    exists cur', snap. split; [exact E1|]. split; [exact E2|].
    assert (Ib : f_inv (z_begin cur' snap)).
    { rewrite E in E1. injection E1 as <-. destruct (Hall snap) as [Is Rs]; [eapply nth_error_In, E2|].
      apply (begin_inv _ _ _ _ _ _ Is Rs). }
    destruct (zf_exec_ok ops _ Ib) as (_ & _ & Er & _ & Eg). cbn [z_begin zrev zgen] in Er, Eg.
    unfold docs_outcome in D. rewrite Er, Eg in D. unfold cleared_since.
    destruct (zgen cur' =? zgen snap), (clears_f ops); cbn [negb] in *; auto. apply merged_committed, D.
  Qed.

  (** A transaction sees the index as if it were alone. *)
  Lemma zf_isolated sch cur snap ops : In cur (zf_run sch) -> In snap (zf_run sch) ->
    hd_error (zf_run sch) = Some cur ->
    zf_view (z_exec zf_step ops (z_begin cur snap)) = f_run (index_all (zrev snap) ++ ops).
  Proof.
    intros Hc Hs Hh. destruct (zf_run_ok sch) as (cur' & rest & E & Hall).
    rewrite E in Hh. injection Hh as <-. destruct (Hall snap Hs) as [Is Rs].
    destruct (zf_exec_ok ops (z_begin cur' snap) (begin_inv _ _ _ _ _ _ Is Rs)) as (_ & -> & _).
    rewrite begin_view. destruct (zf_consistent sch snap Hs) as (_ & -> & _). unfold f_run. rewrite fold_left_app. reflexivity.
  Qed.

  (** Transactions about different documents can be put one after the other. *)
  Lemma fold_same_docs (ops : list (fop T)) m1 m2 :
    clears_f ops = false ->
    (forall v w, In v (values_of ops) -> (exists d, get m1 d = Some w) \/ (exists d, get m2 d = Some w) \/ In w (values_of ops) -> key_ok v w = true) ->
    forall d, (In d (docs_of ops) -> get m1 d = get m2 d -> get (fold_left current_step ops m1) d = get (fold_left current_step ops m2) d) /\
              (~ In d (docs_of ops) -> get (fold_left current_step ops m2) d = get m2 d).
  Proof.
    revert m1 m2; induction ops as [|o ops IH]; intros m1 m2 Hc Hk d; [split; [intros []|reflexivity]|].
    unfold clears_f in Hc; cbn [existsb] in Hc. apply orb_false_iff in Hc as [Hc0 Hc].
    cbn [fold_left].
    assert (Hord : forall v m, In v (values_of (o :: ops)) -> (m = m1 \/ m = m2) -> forallb (key_ok v) (vals m) = true).
    { intros v m Hv Hm. apply orderable_vals. intros d' w Hw. apply Hk; [exact Hv|]. destruct Hm as [-> | ->]; eauto. }
    assert (Hsub : forall v, In v (values_of ops) -> In v (values_of (o :: ops))).
    { intros v Hv. unfold values_of; cbn [map concat]. apply in_app_iff. right. exact Hv. }
    assert (Hstep : forall m, m = m1 \/ m = m2 -> current_step m o = match o with FIndex d v => put d v m | FUnindex d => del d m | FClear => m end).
    { intros m Hm. destruct o as [d' v|d'|]; cbn [current_step]; [|reflexivity|discriminate].
      rewrite Hord; auto. left; reflexivity. }
    destruct (IH (current_step m1 o) (current_step m2 o)) with (d := d) as [I1 I2].
    { exact Hc. }
    { intros v w Hv Hw. apply Hk; [auto|]. rewrite !Hstep in Hw by auto.
      destruct o as [d' v'|d'|]; [| |discriminate].
      - assert (Hv' : In v' (values_of (FIndex d' v' :: ops))) by (left; reflexivity).
        destruct Hw as [[d1 Hw]|[[d1 Hw]|Hw]]; [| |right; right; apply Hsub, Hw];
          rewrite get_put in Hw; destruct (eqb d1 d'); [injection Hw as <-; auto|eauto|injection Hw as <-; auto|eauto].
      - destruct Hw as [[d1 Hw]|[[d1 Hw]|Hw]]; [| |right; right; apply Hsub, Hw];
          rewrite get_del in Hw; destruct (eqb d1 d'); try discriminate; eauto. }
    assert (Hdocs : docs_of (o :: ops) = match o with FIndex d _ => [d] | FUnindex d => [d] | FClear => [] end ++ docs_of ops) by reflexivity.
    rewrite Hdocs. split.
    - intros Hin Heq.
      assert (Heq' : get (current_step m1 o) d = get (current_step m2 o) d).
      { rewrite !Hstep by auto. destruct o as [d' v'|d'|]; [rewrite !get_put|rewrite !get_del|exact Heq]; destruct (eqb d d'); auto. }
      destruct (in_dec Z.eq_dec d (docs_of ops)) as [Hi|Hi]; [apply I1; assumption|].
      destruct (IH (current_step m2 o) (current_step m1 o)) with (d := d) as [_ I2'].
      { exact Hc. }
      { intros v w Hv Hw. apply Hk; [auto|]. rewrite !Hstep in Hw by auto.
        destruct o as [d' v'|d'|]; [| |discriminate].
        - assert (Hv' : In v' (values_of (FIndex d' v' :: ops))) by (left; reflexivity).
          destruct Hw as [[d1 Hw]|[[d1 Hw]|Hw]]; [| |right; right; apply Hsub, Hw];
            rewrite get_put in Hw; destruct (eqb d1 d'); [injection Hw as <-; auto|eauto|injection Hw as <-; auto|eauto].
        - destruct Hw as [[d1 Hw]|[[d1 Hw]|Hw]]; [| |right; right; apply Hsub, Hw];
            rewrite get_del in Hw; destruct (eqb d1 d'); try discriminate; eauto. }
      rewrite I2, I2' by exact Hi. exact Heq'.
    - intros Hn. rewrite in_app_iff in Hn. rewrite I2 by tauto. rewrite Hstep by auto.
      destruct o as [d' v'|d'|]; [| |reflexivity].
      + apply get_put_other. intros ->. apply Hn. left; left; reflexivity.
      + apply get_del_other. intros ->. apply Hn. left; left; reflexivity.
  Qed.
  Lemma zf_serial sch i ops st cur snap : zf_commit (zf_run sch) i ops = Some st ->
    hd_error (zf_run sch) = Some cur -> nth_error (zf_run sch) i = Some snap ->
    cleared_since snap cur = false -> clears_f ops = false ->
    (forall d, In d (docs_of ops) -> get (zrev cur) d = get (zrev snap) d) ->
    (forall v w, In v (values_of ops) ->
       (exists d, get (zrev snap) d = Some w) \/ (exists d, get (zrev cur) d = Some w) \/ In w (values_of ops) -> key_ok v w = true) ->
    zf_view st = f_run (index_all (zrev cur) ++ ops).
  Proof.
    intros Hc E1 E2 Hs Hcl Hd Hk. destruct (zf_commit_ok _ _ _ _ Hc) as (cur' & snap' & E1' & E2' & D).
    assert (cur' = cur) by congruence. assert (snap' = snap) by congruence. subst. rewrite Hs, Hcl in D. cbn in D.
    assert (Er : zrev st = fold_left current_step ops (zrev cur)).
    { apply smap_ext. intros d. destruct (fold_same_docs ops (zrev snap) (zrev cur) Hcl Hk d) as [F1 F2].
      assert (Hk' : forall v w, In v (values_of ops) ->
        (exists d, get (zrev cur) d = Some w) \/ (exists d, get (zrev snap) d = Some w) \/ In w (values_of ops) -> key_ok v w = true).
      { intros v w Hv Hw. apply Hk; tauto. }
      destruct (fold_same_docs ops (zrev cur) (zrev snap) Hcl Hk' d) as [_ F2'].
      destruct (D d) as [D1 D2]. destruct (in_dec Z.eq_dec d (docs_of ops)) as [Hin|Hin].
      - rewrite <- (F1 Hin (eq_sym (Hd d Hin))).
        assert (Hdec : {get (fold_left current_step ops (zrev snap)) d = get (zrev snap) d} +
                       {get (fold_left current_step ops (zrev snap)) d <> get (zrev snap) d}).
        { destruct (opt_same eqb (get (fold_left current_step ops (zrev snap)) d) (get (zrev snap) d)) eqn:E.
          - left. apply (opt_same_eq _ eq_pyval), E.
          - right. intros H. apply (opt_same_eq _ eq_pyval) in H. congruence. }
        destruct Hdec as [H|H].
        + rewrite (D1 H), H. apply Hd, Hin.
        + apply D2, H.
      - rewrite (F2 Hin). apply D1. apply F2', Hin. }
    assert (Hin : In st (zf_run (sch ++ [(i, ops)]))).
    { unfold zf_run. rewrite db_run_snoc. unfold db_step. cbn [fst snd].
      change (commit eqb key_ok zf_step (db_run eqb key_ok zf_step sch) i ops) with (zf_commit (zf_run sch) i ops).
      rewrite Hc. left; reflexivity. }
    destruct (zf_consistent _ _ Hin) as (_ & -> & Ec). apply f_state_of_current. rewrite Ec, Er.
    unfold current at 1. rewrite fold_left_app. f_equal.
    assert (Hin' : In cur (zf_run sch)) by (destruct (zf_run sch); [discriminate|]; injection E1 as ->; left; reflexivity).
    symmetry. apply (zf_consistent _ _ Hin').
  Qed.

  Lemma zf_consistent_view sch st : In st (zf_run sch) ->
    zf_view st = f_run (index_all (zrev st)) /\ current (index_all (zrev st)) = zrev st.
  Proof. intros H. apply (zf_consistent sch st H). Qed.
  Lemma zf_isolated_view sch cur snap ops : In snap (zf_run sch) -> hd_error (zf_run sch) = Some cur ->
    zf_view (z_exec zf_step ops (z_begin cur snap)) = f_run (index_all (zrev snap) ++ ops).
  Proof.
    intros Hs Hh. apply (zf_isolated sch); auto. destruct (zf_run sch); [discriminate|].
    injection Hh as ->. left; reflexivity.
  Qed.

  (** ** One transaction after the other *)
  Lemma begin_same st : z_begin st st = st.
  Proof. destruct st as [[c n] f r k g]. reflexivity. Qed.
  Lemma zf_alone sch ops : exists cur st, hd_error (zf_run sch) = Some cur /\
    zf_commit (zf_run sch) 0 ops = Some st /\ zf_view st = f_run (index_all (zrev cur) ++ ops).
  Proof.
    destruct (zf_run_ok sch) as (cur & rest & E & Hall). exists cur.
    destruct (Hall cur) as [Hi _]; [rewrite E; left; reflexivity|].
    assert (Hex : exists st, zf_commit (zf_run sch) 0 ops = Some st).
    { unfold zf_commit, commit. rewrite E. cbn [nth_error]. rewrite begin_same.
      destruct (zf_exec_ok ops cur Hi) as ((_ & _ & _ & Hc & _) & _).
      apply (merge_alone eqb key_ok eq_pyval cur _ Hc). }
    destruct Hex as [st Hc]. exists st. split; [rewrite E; reflexivity|]. split; [exact Hc|].
    destruct (zf_commit_ok _ _ _ _ Hc) as (cur' & snap & E1 & E2 & D).
    rewrite E in E1, E2. cbn in E1, E2. injection E1 as <-. injection E2 as <-.
    unfold cleared_since in D. rewrite Z.eqb_refl in D. cbn [negb] in D.
    assert (Er : zrev st = fold_left current_step ops (zrev cur)).
    { destruct (clears_f ops); [exact D|]. apply smap_ext. intros d. destruct (D d) as [D1 D2].
      destruct (opt_same eqb (get (fold_left current_step ops (zrev cur)) d) (get (zrev cur) d)) eqn:Eo.
      - apply (opt_same_eq _ eq_pyval) in Eo. rewrite Eo. apply D1, Eo.
      - apply D2. intros H. apply (opt_same_eq _ eq_pyval) in H. congruence. }
    assert (Hin : In st (zf_run (sch ++ [(0%nat, ops)]))).
    { unfold zf_run. rewrite db_run_snoc. unfold db_step. cbn [fst snd].
      change (commit eqb key_ok zf_step (db_run eqb key_ok zf_step sch) 0 ops) with (zf_commit (zf_run sch) 0 ops).
      rewrite Hc. left; reflexivity. }
    destruct (zf_consistent _ _ Hin) as (_ & -> & Ec). apply f_state_of_current. rewrite Ec, Er.
    unfold current at 1. rewrite fold_left_app. f_equal. symmetry.
    apply (zf_consistent sch). rewrite E. left; reflexivity.
  Qed.
  Lemma zf_one_client (txs : list (list (fop T))) : exists st,
    hd_error (zf_run (map (pair 0%nat) txs)) = Some st /\ zf_view st = f_run (concat txs).
  Proof.
    induction txs as [|ops txs IH] using rev_ind.
    - exists z_new. split; [reflexivity|]. unfold zf_view, f_run, f_clear. cbn. f_equal. apply elts_inj. reflexivity.
    - destruct IH as (cur & Hc & Ev). rewrite map_app. cbn [map].
      destruct (zf_alone (map (pair 0%nat) txs) ops) as (cur' & st & E1 & E2 & E3).
      assert (cur' = cur) by congruence. subst. exists st. unfold zf_run. rewrite db_run_snoc. unfold db_step. cbn [fst snd].
      change (commit eqb key_ok zf_step (db_run eqb key_ok zf_step (map (pair 0%nat) txs)) 0 ops)
        with (zf_commit (zf_run (map (pair 0%nat) txs)) 0 ops).
      rewrite E2. split; [reflexivity|]. rewrite E3, concat_app. cbn [concat]. rewrite app_nil_r.
      unfold f_run. rewrite !fold_left_app. f_equal.
      change (f_run (index_all (zrev cur)) = f_run (concat txs)). rewrite <- Ev. symmetry.
      apply (zf_consistent (map (pair 0%nat) txs)). destruct (zf_run _); [discriminate|]. injection E1 as ->. left; reflexivity.
  Qed.
End L.
