(** * Lemmas about the field index *)
From Verif Require Import S_field M_field SMap Ord.

Section L.
  Context {T : Type} `{OT : Ord T}.
  Notation pyval := (pyval T).
  Notation fop := (fop T).
  Notation fstate := (fstate T).
  Implicit Types (m : smap Z pyval) (v w : pyval) (d : Z) (st : fstate).

  (** ** The invariant *)
  Definition docs_with m v : sset Z := mmap (fun _ _ => tt) (sfilter (fun _ w => eqb v w) m).
  Lemma mem_docs_with m v d : mem d (docs_with m v) = match get m d with Some w => eqb v w | None => false end.
  Proof.
    unfold mem, docs_with. rewrite get_mmap, get_sfilter. destruct (get m d) as [w|]; [|reflexivity].
    destruct (eqb v w); reflexivity.
  Qed.
  Definition posting m v : option (sset Z) :=
    if is_empty (docs_with m v) then None else Some (docs_with m v).
  Definition homog m : Prop := forall d w d' w', get m d = Some w -> get m d' = Some w' -> key_ok w w' = true.
  Definition finv st m : Prop :=
    rev_ix st = m /\ num_docs st = Zsize m /\ (forall v, get (fwd st) v = posting m v) /\ homog m.

  Lemma finv_unique st st' m : finv st m -> finv st' m -> st = st'.
  Proof.
    intros (H1 & H2 & H3 & _) (H1' & H2' & H3' & _). destruct st as [f r n], st' as [f' r' n']. cbn in *.
    subst. f_equal. apply smap_ext. intros k. rewrite H3, H3'. reflexivity.
  Qed.

  Lemma posting_keys st m v : finv st m -> (In v (keys (fwd st)) <-> exists d, get m d = Some v).
  Proof.
    intros (_ & _ & H & _). rewrite keys_In, H. unfold posting. destruct (is_empty (docs_with m v)) eqn:E.
    - split; [intros [? ?]; discriminate|]. intros [d Hd].
      pose proof (proj1 (is_empty_mem _) E d) as Hm. rewrite mem_docs_with, Hd, eqb_refl in Hm. discriminate.
    - split; [intros _|eauto]. apply is_empty_false in E as [d [u Hd]].
      assert (Hm : mem d (docs_with m v) = true) by (unfold mem; rewrite Hd; reflexivity).
      rewrite mem_docs_with in Hm. destruct (get m d) as [w|] eqn:Ed; [|discriminate].
      apply eqb_eq in Hm; subst. eauto.
  Qed.

  Lemma key_ok_sym v w : key_ok v w = key_ok w v.
  Proof. destruct v, w; reflexivity. Qed.

  Lemma forallb_keys_vals st m v : finv st m ->
    forallb (key_ok v) (keys (fwd st)) = forallb (key_ok v) (vals m).
  Proof.
    intros Hi. apply eq_true_iff_eq. rewrite !forallb_forall. split; intros H x Hx; apply H.
    - apply vals_In in Hx. apply (posting_keys _ _ _ Hi). exact Hx.
    - apply (posting_keys _ _ _ Hi) in Hx. apply vals_In. exact Hx.
  Qed.

  Lemma orderable_vals m v : forallb (key_ok v) (vals m) = true <-> orderable_in v m.
  Proof.
    rewrite forallb_forall. split; intros H.
    - intros d w Hd. apply H, vals_In. eauto.
    - intros w Hw. apply vals_In in Hw as [d Hd]. eapply H; eassumption.
  Qed.

  Lemma bt_get_ok st m v : finv st m -> forallb (key_ok v) (vals m) = true ->
    bt_get (fwd st) v = Ok (posting m v).
  Proof.
    intros Hi H. unfold bt_get. rewrite (forallb_keys_vals _ _ _ Hi), H. f_equal. apply Hi.
  Qed.
  Lemma bt_get_bad st m v : finv st m -> forallb (key_ok v) (vals m) = false ->
    bt_get (fwd st) v = Raise TypeError.
  Proof. intros Hi H. unfold bt_get. rewrite (forallb_keys_vals _ _ _ Hi), H. reflexivity. Qed.

  Lemma homog_ok m d v : homog m -> get m d = Some v -> forallb (key_ok v) (vals m) = true.
  Proof. intros H Hd. apply orderable_vals. intros d' w Hw. eapply H; eassumption. Qed.
  Lemma homog_del m d : homog m -> homog (del d m).
  Proof.
    intros H d1 w1 d2 w2. rewrite !get_del.
    destruct (eqb d1 d), (eqb d2 d); try discriminate. apply H.
  Qed.
  Lemma homog_put m d v : homog m -> orderable_in v m -> homog (put d v m).
  Proof.
    intros H Ho d1 w1 d2 w2. rewrite !get_put.
    destruct (eqb d1 d), (eqb d2 d); intros E1 E2.
    - injection E1 as <-. injection E2 as <-. destruct v; reflexivity.
    - injection E1 as <-. eapply Ho; eassumption.
    - injection E2 as <-. rewrite key_ok_sym. eapply Ho; eassumption.
    - eapply H; eassumption.
  Qed.

  Lemma docs_with_put m d v w : get m d = None ->
    docs_with (put d v m) w = if eqb w v then sadd d (docs_with m w) else docs_with m w.
  Proof.
    intros Hd. apply sset_ext. intros k. rewrite mem_docs_with, get_put.
    destruct (eqb k d) eqn:Ekd.
    - apply eqb_eq in Ekd; subst k. destruct (eqb w v).
      + rewrite mem_sadd, eqb_refl. reflexivity.
      + rewrite mem_docs_with, Hd. reflexivity.
    - destruct (eqb w v); rewrite ?mem_sadd, ?Ekd, mem_docs_with; reflexivity.
  Qed.
  Lemma docs_with_del m d v w : get m d = Some v ->
    docs_with (del d m) w = if eqb w v then srem d (docs_with m w) else docs_with m w.
  Proof.
    intros Hd. apply sset_ext. intros k. rewrite mem_docs_with, get_del.
    destruct (eqb k d) eqn:Ekd.
    - apply eqb_eq in Ekd; subst k. destruct (eqb w v) eqn:E.
      + rewrite mem_srem, eqb_refl. reflexivity.
      + rewrite mem_docs_with, Hd, E. reflexivity.
    - destruct (eqb w v); rewrite ?mem_srem, ?Ekd, mem_docs_with; reflexivity.
  Qed.

  Lemma finv_clear : finv f_clear empty.
  Proof.
    unfold finv, f_clear; cbn [rev_ix num_docs fwd]. splits; try reflexivity.
    intros d w d' w'. rewrite get_empty. discriminate.
  Qed.

  Lemma f_unindex_inv d st m : finv st m ->
    snd (f_unindex d st) = Ok tt /\ finv (fst (f_unindex d st)) (del d m).
  Proof.
    intros Hi. pose proof Hi as (H1 & H2 & H3 & H4). unfold f_unindex. rewrite H1.
    destruct (get m d) as [v|] eqn:Ed.
    2:{ cbn. split; [reflexivity|]. rewrite del_absent by exact Ed. exact Hi. }
    rewrite (bt_get_ok _ _ _ Hi (homog_ok _ _ _ H4 Ed)).
    assert (Hm : mem d (docs_with m v) = true) by (rewrite mem_docs_with, Ed; apply eqb_refl).
    destruct (is_empty (docs_with m v)) eqn:Ee.
    { rewrite (proj1 (is_empty_mem _) Ee d) in Hm. discriminate. }
    assert (Hp : posting m v = Some (docs_with m v)) by (unfold posting; rewrite Ee; reflexivity).
    rewrite Hp, Hm. cbn [fst snd]. split; [reflexivity|]. unfold finv; splits; cbn [rev_ix num_docs fwd].
    - reflexivity.
    - rewrite (Zsize_del _ _ _ Ed), H2. reflexivity.
    - intros w. unfold posting. rewrite (docs_with_del _ _ _ w Ed).
      destruct (is_empty (srem d (docs_with m v))) eqn:Es.
      + rewrite get_del. destruct (eqb w v) eqn:Ew; [|apply H3]. apply eqb_eq in Ew; subst. rewrite Es. reflexivity.
      + rewrite get_put. destruct (eqb w v) eqn:Ew; [|apply H3]. apply eqb_eq in Ew; subst. rewrite Es. reflexivity.
    - apply homog_del, H4.
  Qed.

  Lemma f_insert_ok d v st m : finv st m -> get m d = None -> forallb (key_ok v) (vals m) = true ->
    snd (f_insert d v st) = Ok tt /\ finv (fst (f_insert d v st)) (put d v m).
  Proof.
    intros Hi Hd Hv. unfold f_insert. rewrite (bt_get_ok _ _ _ Hi Hv). cbn [fst snd].
    destruct Hi as (H1 & H2 & H3 & H4). split; [reflexivity|]. unfold finv; splits; cbn [rev_ix num_docs fwd].
    - rewrite H1. reflexivity.
    - rewrite (Zsize_put_new _ _ _ Hd), H2. reflexivity.
    - intros w. rewrite get_put. unfold posting at 2. rewrite (docs_with_put _ _ _ w Hd).
      destruct (eqb w v) eqn:Ew; [|apply H3]. apply eqb_eq in Ew; subst w.
      destruct (is_empty (sadd d (docs_with m v))) eqn:Ee.
      { pose proof (proj1 (is_empty_mem _) Ee d) as Hx. rewrite mem_sadd, eqb_refl in Hx. discriminate. }
      f_equal. unfold posting. destruct (is_empty (docs_with m v)) eqn:Ex; [|reflexivity].
      apply is_empty_spec in Ex. rewrite Ex. reflexivity.
    - apply homog_put; [exact H4|]. apply orderable_vals, Hv.
  Qed.

  Lemma orderable_del m d v : orderable_in v m -> orderable_in v (del d m).
  Proof. intros H d' w. rewrite get_del. destruct (eqb d' d); [discriminate|]. apply H. Qed.

  Lemma f_index_inv d v st m : finv st m ->
    (forallb (key_ok v) (vals m) = true -> snd (f_index d v st) = Ok tt /\ finv (fst (f_index d v st)) (put d v m)) /\
    (forallb (key_ok v) (vals m) = false -> f_index d v st = (st, Raise TypeError)).
  Proof.
    intros Hi. pose proof Hi as (H1 & H2 & H3 & H4). split; intros Hv; unfold f_index; rewrite H1.
    - destruct (mem d m) eqn:Em.
      + rewrite (bt_get_ok _ _ _ Hi Hv). apply mem_get in Em as [w Ed].
        assert (Hin : match posting m v with Some s0 => mem d s0 | None => false end = eqb v w).
        { unfold posting. destruct (is_empty (docs_with m v)) eqn:Ee.
          - pose proof (proj1 (is_empty_mem _) Ee d) as Hx. rewrite mem_docs_with, Ed in Hx. congruence.
          - rewrite mem_docs_with, Ed. reflexivity. }
        rewrite Hin. destruct (eqb v w) eqn:Evw.
        * apply eqb_eq in Evw; subst w. cbn. split; [reflexivity|]. rewrite put_same_id by exact Ed. exact Hi.
        * destruct (f_unindex_inv d st m Hi) as [Ho Hu]. destruct (f_unindex d st) as [st' o]. cbn in Ho, Hu. subst o.
          rewrite <- put_del. apply f_insert_ok; [exact Hu|apply get_del_same|].
          apply orderable_vals, orderable_del, orderable_vals, Hv.
      + apply mem_false in Em. apply f_insert_ok; assumption.
    - destruct (mem d m).
      + rewrite (bt_get_bad _ _ _ Hi Hv). reflexivity.
      + unfold f_insert. rewrite (bt_get_bad _ _ _ Hi Hv). reflexivity.
  Qed.

  Lemma f_step_inv st m o : finv st m -> finv (fst (f_step st o)) (current_step m o).
  Proof.
    intros Hi. destruct o as [d v|d|]; cbn.
    - destruct (f_index_inv d v st m Hi) as [Ha Hb].
      destruct (forallb (key_ok v) (vals m)); [apply Ha; reflexivity|]. rewrite Hb by reflexivity. exact Hi.
    - apply f_unindex_inv, Hi.
    - exact finv_clear.
  Qed.

  Lemma fold_inv (h : list fop) st m : finv st m ->
    finv (fold_left (fun st o => fst (f_step st o)) h st) (fold_left current_step h m).
  Proof.
    revert st m; induction h as [|o h IH]; intros st m Hi; cbn; [exact Hi|]. apply IH, f_step_inv, Hi.
  Qed.
  Lemma f_run_inv (h : list fop) : finv (f_run h) (current h).
  Proof. apply fold_inv, finv_clear. Qed.

  Lemma f_run_snoc (h : list fop) o : f_run (h ++ [o]) = fst (f_step (f_run h) o).
  Proof. unfold f_run. rewrite fold_left_app. reflexivity. Qed.
  Lemma current_snoc (h : list fop) o : current (h ++ [o]) = current_step (current h) o.
  Proof. unfold current. rewrite fold_left_app. reflexivity. Qed.

  (** ** C14 *)
  Lemma current_last_said (h : list fop) : mutually_orderable h ->
    (forall d, get (current h) d = last_said d (rev h)) /\
    (forall h1 o h2, h = h1 ++ o :: h2 -> snd (f_step (f_run h1) o) = Ok tt).
  Proof.
    induction h as [|o h IH] using rev_ind; intros Hm.
    - split; [reflexivity|]. intros [|? ?] o h2; discriminate.
    - assert (Hm' : mutually_orderable h).
      { intros v w Hv Hw. apply Hm; unfold values_of; rewrite map_app, concat_app, in_app_iff; left; assumption. }
      destruct (IH Hm') as [IH1 IH2].
      assert (Hvals : forall d w, get (current h) d = Some w -> In w (values_of h)).
      { intros d w. rewrite IH1. clear. induction h as [|o h IH] using rev_ind; [discriminate|].
        unfold values_of. rewrite map_app, concat_app, in_app_iff, rev_app_distr. cbn.
        destruct o as [d' v'|d'|]; cbn.
        - destruct (d =? d'); [intros [= ->]; tauto|]. intros H. left. apply IH, H.
        - destruct (d =? d'); [discriminate|]. intros H. left. apply IH, H.
        - discriminate. }
      assert (Hord : forall d v, o = FIndex d v -> forallb (key_ok v) (vals (current h)) = true).
      { intros d v ->. apply orderable_vals. intros d' w Hw. apply Hm.
        - unfold values_of. rewrite map_app, concat_app, in_app_iff. right. left. reflexivity.
        - unfold values_of. rewrite map_app, concat_app, in_app_iff. left. eapply Hvals; eassumption. }
      split.
      + intros d. rewrite current_snoc, rev_app_distr. cbn [rev app]. destruct o as [d' v|d'|]; cbn [current_step last_said].
        * rewrite (Hord _ _ eq_refl), get_put, eqbZ, IH1. reflexivity.
        * rewrite get_del, eqbZ, IH1. reflexivity.
        * reflexivity.
      + intros h1 o' h2 E. destruct (snoc_cases h2) as [->|[h2' [x ->]]].
        * apply app_inj_tail in E as [<- <-]. pose proof (f_run_inv h) as Hi. destruct o as [d v|d|]; cbn.
          -- apply (f_index_inv d v _ _ Hi). eapply Hord; reflexivity.
          -- apply (f_unindex_inv d _ _ Hi).
          -- reflexivity.
        * change (h1 ++ o' :: h2' ++ [x]) with (h1 ++ (o' :: h2') ++ [x]) in E.
          rewrite app_assoc in E. apply app_inj_tail in E as [E _]. eapply IH2, E.
  Qed.

  Lemma vals_sfilter_In {X} (m : smap pyval X) (f : pyval -> bool) x :
    In x (vals (sfilter (fun k _ => f k) m)) <-> exists k, get m k = Some x /\ f k = true.
  Proof.
    rewrite vals_In. split; intros [k Hk]; exists k.
    - rewrite get_sfilter in Hk. destruct (get m k) as [y|]; [|discriminate].
      destruct (f k); [injection Hk as <-; auto|discriminate].
    - destruct Hk as [Hk Hf]. rewrite get_sfilter, Hk, Hf. reflexivity.
  Qed.

  Definition inb (lo hi v : pyval) : bool := (is_none lo || leb lo v) && (is_none hi || leb v hi).
  Lemma inb_spec lo hi v : inb lo hi v = true <-> in_range lo hi v.
  Proof.
    unfold inb, in_range. rewrite andb_true_iff, !orb_true_iff, !leb_le.
    split; intros [H1 H2]; split.
    - destruct lo; cbn in *; intuition congruence.
    - destruct hi; cbn in *; intuition congruence.
    - destruct H1 as [-> |H1]; auto.
    - destruct H2 as [-> |H2]; auto.
  Qed.

  Lemma orderable_none m : orderable_in VNone m.
  Proof. intros d w _. reflexivity. Qed.

  Lemma mem_range st m lo hi d : finv st m ->
    mem d (multiunion (vals (sfilter (fun k _ => inb lo hi k) (fwd st)))) =
    match get m d with Some v => inb lo hi v | None => false end.
  Proof.
    intros Hi. apply eq_true_iff_eq. rewrite mem_multiunion, existsb_exists. split.
    - intros [s [Hs Hd]]. apply vals_sfilter_In in Hs as [k [Hk Hb]].
      destruct Hi as (_ & _ & H3 & _). rewrite H3 in Hk. unfold posting in Hk.
      destruct (is_empty (docs_with m k)); [discriminate|]. injection Hk as <-.
      rewrite mem_docs_with in Hd. destruct (get m d) as [w|]; [|discriminate].
      apply eqb_eq in Hd; subst. exact Hb.
    - destruct (get m d) as [v|] eqn:Ed; [|discriminate]. intros Hb.
      exists (docs_with m v). split.
      + apply vals_sfilter_In. exists v. split; [|exact Hb].
        destruct Hi as (_ & _ & H3 & _). rewrite H3. unfold posting.
        destruct (is_empty (docs_with m v)) eqn:E; [|reflexivity].
        pose proof (proj1 (is_empty_mem _) E d) as Hx. rewrite mem_docs_with, Ed, eqb_refl in Hx. discriminate.
      + rewrite mem_docs_with, Ed. apply eqb_refl.
  Qed.

  Lemma fwd_empty st m : finv st m -> is_empty (fwd st) = is_empty m.
  Proof.
    intros Hi. apply eq_true_iff_eq. rewrite !is_empty_get. split; intros H k.
    - destruct (get m k) as [v|] eqn:E; [|reflexivity].
      assert (Hin : In v (keys (fwd st))) by (apply (posting_keys _ _ _ Hi); eauto).
      apply keys_In in Hin as [s Hs]. rewrite H in Hs. discriminate.
    - destruct (get (fwd st) k) as [s|] eqn:E; [|reflexivity].
      assert (Hin : In k (keys (fwd st))) by (apply keys_In; eauto).
      apply (posting_keys _ _ _ Hi) in Hin as [d Hd]. rewrite H in Hd. discriminate.
  Qed.

  Lemma f_apply_exact (h : list fop) lo hi :
    orderable_in lo (current h) -> orderable_in hi (current h) ->
    exists s, f_apply (QTuple [lo; hi]) (f_run h) = Ok s /\
      forall d, mem d s = true <-> exists v, get (current h) d = Some v /\ in_range lo hi v.
  Proof.
    intros Hlo Hhi. pose proof (f_run_inv h) as Hi. set (st := f_run h) in *. set (m := current h) in *. clearbody st m.
    assert (Hspec : forall s : sset Z, (forall d, mem d s = match get m d with Some v => inb lo hi v | None => false end) ->
      forall d, mem d s = true <-> exists v, get m d = Some v /\ in_range lo hi v).
    { intros s Hs d. rewrite Hs. split.
      - destruct (get m d) as [v|]; [|discriminate]. intros H; exists v. split; [reflexivity|]. apply inb_spec, H.
      - intros [v [-> Hv]]. apply inb_spec, Hv. }
    apply orderable_vals in Hlo, Hhi. cbn. unfold bt_range. rewrite (fwd_empty _ _ Hi).
    destruct (is_empty m) eqn:Em.
    { eexists; split; [reflexivity|]. apply Hspec. intros d. rewrite (proj1 (is_empty_get _) Em). reflexivity. }
    rewrite !(forallb_keys_vals _ _ _ Hi), Hlo, Hhi, !orb_true_r. cbn [negb].
    destruct (existsb _ (keys (fwd st))) eqn:Ee; cbn [negb bind].
    - eexists; split; [reflexivity|]. apply Hspec. intros d. apply (mem_range _ _ _ _ _ Hi).
    - eexists; split; [reflexivity|]. apply Hspec. intros d. destruct (get m d) as [v|] eqn:Ed; [|reflexivity].
      cbn. unfold inb. destruct (is_none lo || leb lo v) eqn:El; [|reflexivity]. exfalso.
      assert (Hin : In v (keys (fwd st))) by (apply (posting_keys _ _ _ Hi); eauto).
      assert (Ht : existsb (fun k => is_none lo || leb lo k) (keys (fwd st)) = true)
        by (apply existsb_exists; exists v; auto).
      congruence.
  Qed.

  Lemma f_apply_bad (h : list fop) lo hi :
    (~ orderable_in lo (current h) -> f_apply (QTuple [lo; hi]) (f_run h) = Raise TypeError) /\
    (~ orderable_in hi (current h) -> f_apply (QTuple [lo; hi]) (f_run h) = Raise TypeError \/
       (f_apply (QTuple [lo; hi]) (f_run h) = Ok empty /\
        forall d v, get (current h) d = Some v -> ~ in_range lo VNone v)).
  Proof.
    pose proof (f_run_inv h) as Hi. set (st := f_run h) in *. set (m := current h) in *. clearbody st m.
    cbn. unfold bt_range. rewrite (fwd_empty _ _ Hi), !(forallb_keys_vals _ _ _ Hi).
    assert (Hbad : forall v, ~ orderable_in v m -> forallb (key_ok v) (vals m) = false /\ is_none v = false /\ is_empty m = false).
    { intros v Hv. splits.
      - destruct (forallb _ _) eqn:E; [|reflexivity]. destruct Hv. apply orderable_vals, E.
      - destruct v; [destruct Hv; apply orderable_none| |]; reflexivity.
      - destruct (is_empty m) eqn:E; [|reflexivity]. destruct Hv. intros d w Hd.
        rewrite (proj1 (is_empty_get _) E) in Hd. discriminate. }
    split; intros Hv; destruct (Hbad _ Hv) as (-> & -> & ->).
    - reflexivity.
    - destruct (negb (is_none lo || forallb (key_ok lo) (vals m))); [left; reflexivity|].
      destruct (existsb _ (keys (fwd st))) eqn:Ee; cbn [negb orb]; [left; reflexivity|right].
      split; [reflexivity|]. intros d v Hd Hr.
      assert (Hin : In v (keys (fwd st))) by (apply (posting_keys _ _ _ Hi); eauto).
      assert (Ht : existsb (fun k => is_none lo || leb lo k) (keys (fwd st)) = true).
      { apply existsb_exists; exists v. split; [exact Hin|]. apply inb_spec in Hr. unfold inb in Hr.
        apply andb_true_iff in Hr. apply Hr. }
      congruence.
  Qed.

  Lemma f_apply_not_pair st q : (forall lo hi, q <> QTuple [lo; hi]) -> f_apply q st = Raise TypeError.
  Proof.
    intros H. destruct q as [[|a [|b [|c l]]]|]; try reflexivity. destruct (H a b eq_refl).
  Qed.

  (** ** C15 *)
  Lemma f_apply_value (h : list fop) v : v <> VNone -> orderable_in v (current h) ->
    exists s, f_apply (QTuple [v; v]) (f_run h) = Ok s /\
      forall d, mem d s = true <-> get (current h) d = Some v.
  Proof.
    intros Hn Ho. destruct (f_apply_exact h v v Ho Ho) as [s [Hs Hm]]. exists s. split; [exact Hs|].
    intros d. rewrite Hm. split.
    - intros [w [Hw [[->|H1] [H2|H2]]]]; try contradiction. rewrite Hw. f_equal. apply le_antisym; assumption.
    - intros Hd. exists v. split; [exact Hd|]. split; right; apply le_refl.
  Qed.
  Lemma f_apply_none (h : list fop) :
    exists s, f_apply (QTuple [VNone; VNone]) (f_run h) = Ok s /\
      forall d, mem d s = true <-> exists v, get (current h) d = Some v.
  Proof.
    destruct (f_apply_exact h VNone VNone (orderable_none _) (orderable_none _)) as [s [Hs Hm]].
    exists s. split; [exact Hs|]. intros d. rewrite Hm. split.
    - intros [v [Hv _]]; eauto.
    - intros [v Hv]. exists v. split; [exact Hv|]. split; left; reflexivity.
  Qed.

  (** ** C16 *)
  Lemma f_stats (h : list fop) :
    f_documentCount (f_run h) = Zlen (keys (current h)) /\
    exists values, NoDup values /\ (forall v, In v values <-> exists d, get (current h) d = Some v) /\
      f_wordCount (f_run h) = Zlen values.
  Proof.
    pose proof (f_run_inv h) as Hi. split.
    - unfold f_documentCount. destruct Hi as (_ & -> & _). unfold Zsize, size, Zlen, keys. rewrite map_length. reflexivity.
    - exists (keys (fwd (f_run h))). splits.
      + apply keys_NoDup.
      + intros v. apply (posting_keys _ _ _ Hi).
      + unfold f_wordCount, Zsize, size, Zlen, keys. rewrite map_length. reflexivity.
  Qed.

  (** ** C17 *)
  Lemma f_state_of_current (h1 h2 : list fop) : current h1 = current h2 -> f_run h1 = f_run h2.
  Proof.
    intros H. eapply finv_unique; [apply f_run_inv|]. rewrite H. apply f_run_inv.
  Qed.
  Lemma f_unindex_law (h : list fop) d :
    snd (f_step (f_run h) (FUnindex d)) = Ok tt /\
    current (h ++ [FUnindex d]) = del d (current h) /\
    (get (current h) d = None -> f_run (h ++ [FUnindex d]) = f_run h).
  Proof.
    splits.
    - apply (f_unindex_inv d _ _ (f_run_inv h)).
    - apply current_snoc.
    - intros H. apply f_state_of_current. rewrite current_snoc. apply del_absent, H.
  Qed.
  Lemma f_index_law (h : list fop) d v :
    (orderable_in v (current h) ->
       snd (f_step (f_run h) (FIndex d v)) = Ok tt /\ current (h ++ [FIndex d v]) = put d v (current h)) /\
    (~ orderable_in v (current h) ->
       f_step (f_run h) (FIndex d v) = (f_run h, Raise TypeError) /\ current (h ++ [FIndex d v]) = current h) /\
    (get (current h) d = Some v -> f_run (h ++ [FIndex d v]) = f_run h).
  Proof.
    destruct (f_index_inv d v _ _ (f_run_inv h)) as [Ha Hb]. splits.
    - intros H. apply orderable_vals in H. split; [apply Ha, H|]. rewrite current_snoc. cbn [current_step]. rewrite H. reflexivity.
    - intros H. assert (E : forallb (key_ok v) (vals (current h)) = false).
      { destruct (forallb _ _) eqn:E; [|reflexivity]. destruct H. apply orderable_vals, E. }
      split; [apply Hb, E|]. rewrite current_snoc. cbn [current_step]. rewrite E. reflexivity.
    - intros H. apply f_state_of_current. rewrite current_snoc. cbn [current_step].
      rewrite put_same_id by exact H. destruct (forallb _ _); reflexivity.
  Qed.

  (** ** What an update changes, as seen by range searches *)
  Lemma in_answer_iff (h : list fop) lo hi d :
    orderable_in lo (current h) -> orderable_in hi (current h) ->
    (in_answer lo hi (f_run h) d <-> exists v, get (current h) d = Some v /\ in_range lo hi v).
  Proof.
    intros Hlo Hhi. destruct (f_apply_exact h lo hi Hlo Hhi) as (s & Hs & Hm). unfold in_answer. rewrite Hs, <- Hm. split.
    - intros (s' & [= <-] & H). exact H.
    - eauto.
  Qed.
  Lemma f_index_observed (h : list fop) d v lo hi :
    orderable_in v (current h) -> key_ok lo v = true -> key_ok hi v = true ->
    orderable_in lo (current h) -> orderable_in hi (current h) ->
    let after := f_run (h ++ [FIndex d v]) in
    (forall d', d' <> d -> (in_answer lo hi after d' <-> in_answer lo hi (f_run h) d')) /\
    (in_answer lo hi after d <-> in_range lo hi v).
  Proof.
    intros Hv Hlv Hhv Hlo Hhi after. destruct (f_index_law h d v) as (H & _). apply H in Hv as (_ & Hc). clear H.
    assert (Hput : forall b, key_ok b v = true -> orderable_in b (current h) -> orderable_in b (current (h ++ [FIndex d v]))).
    { intros b Hb Ho d' w. rewrite Hc, get_put. destruct (eqb d' d); [intros [= <-]; exact Hb|apply Ho]. }
    pose proof (Hput lo Hlv Hlo) as Hlo'. pose proof (Hput hi Hhv Hhi) as Hhi'. unfold after. split.
    - intros d' Hne. rewrite !in_answer_iff by assumption. rewrite Hc, get_put.
      destruct (eqb d' d) eqn:E; [apply eqb_eq in E; contradiction|reflexivity].
    - rewrite in_answer_iff by assumption. rewrite Hc, get_put, eqb_refl. split; [intros (w & [= <-] & Hw); exact Hw|eauto].
  Qed.
  Lemma f_unindex_observed (h : list fop) d lo hi :
    orderable_in lo (current h) -> orderable_in hi (current h) ->
    let after := f_run (h ++ [FUnindex d]) in
    (forall d', d' <> d -> (in_answer lo hi after d' <-> in_answer lo hi (f_run h) d')) /\
    ~ in_answer lo hi after d.
  Proof.
    intros Hlo Hhi after. destruct (f_unindex_law h d) as (_ & Hc & _).
    assert (Hdel : forall b, orderable_in b (current h) -> orderable_in b (current (h ++ [FUnindex d]))).
    { intros b Ho d' w. rewrite Hc, get_del. destruct (eqb d' d); [discriminate|apply Ho]. }
    pose proof (Hdel lo Hlo) as Hlo'. pose proof (Hdel hi Hhi) as Hhi'. unfold after. split.
    - intros d' Hne. rewrite !in_answer_iff by assumption. rewrite Hc, get_del.
      destruct (eqb d' d) eqn:E; [apply eqb_eq in E; contradiction|reflexivity].
    - rewrite in_answer_iff by assumption. rewrite Hc, get_del, eqb_refl. intros (w & [=] & _).
  Qed.
End L.
