(** * Lemmas: when transactions on a topic index commute, and when they clash *)
From Verif Require Import Prelude L_zodb L_zbase S_ztopic L_ztopic SMap Ord.

Lemma map3_none {K X} `{Ord K} (f : K -> option X -> option X -> option X -> option (option X)) (o a b : smap K X) :
  map3 f o a b = None -> exists k, f k (get o k) (get a k) (get b k) = None.
Proof.
  unfold map3. generalize (selems (sunion (keyset o) (sunion (keyset a) (keyset b)))). intros l. generalize (@empty K X _).
  induction l as [|k l IH]; intros acc; cbn [fold_left]; [discriminate|].
  destruct (f k (get o k) (get a k) (get b k)) as [[x|]|] eqn:Ef; [apply IH|apply IH|eauto].
Qed.
Lemma obj3_alone o b : obj3 o o b = Some b.
Proof. unfold obj3. rewrite (proj2 (obj_same_eq o o) eq_refl). reflexivity. Qed.
Lemma heap3_alone o b : next o <= next b -> exists hp, heap3 o o b = Some hp.
Proof.
  intros Hn. unfold heap3. destruct (map3_total (fun l x y z => if next o <=? l then Some z else if next o <=? l then Some y
    else option_map Some (obj3 (the_obj x) (the_obj y) (the_obj z))) (cells o) (cells o) (cells b)) as [m ->]; [|eauto].
  intros k. destruct (next o <=? k); [discriminate|]. rewrite obj3_alone. discriminate.
Qed.

Lemma set_differ (s t : sset Z) : s <> t -> exists d, mem d s <> mem d t.
Proof.
  intros H. destruct (existsb (fun k => negb (Bool.eqb (mem k s) (mem k t))) (selems s ++ selems t)) eqn:Ex.
  - apply existsb_exists in Ex as (d & _ & Hd). exists d. intros Em. rewrite Em, Bool.eqb_reflx in Hd. discriminate.
  - destruct H. apply sset_ext. intros d. destruct (mem d s) eqn:E1, (mem d t) eqn:E2; try reflexivity;
    (rewrite <- Bool.not_true_iff_false in Ex; destruct Ex; apply existsb_exists; exists d;
     split; [apply in_app_iff; rewrite !selems_In; tauto|rewrite E1, E2; reflexivity]).
Qed.
Lemma empty_mem (s : sset Z) : is_empty s = true <-> forall d, mem d s = false.
Proof. exact (is_empty_mem s). Qed.
Lemma set3_none o a b : set3 o a b = None -> a <> o /\ b <> o /\
  ((exists d, mem d a <> mem d o /\ mem d b <> mem d o) \/ (forall d, mem d a = false) \/ (forall d, mem d b = false) \/
   (forall d, (mem d a = true -> mem d b <> mem d o) /\ (mem d b = true -> mem d a <> mem d o))).
Proof.
  unfold set3. destruct (set_same a o) eqn:E1; [discriminate|]. destruct (set_same b o) eqn:E2; [discriminate|].
  assert (N1 : a <> o) by (intros E; apply set_same_eq in E; congruence). assert (N2 : b <> o) by (intros E; apply set_same_eq in E; congruence).
  intros H. split; [exact N1|]. split; [exact N2|].
  destruct (is_empty a) eqn:Ea; [right; left; apply empty_mem, Ea|]. destruct (is_empty b) eqn:Eb; [right; right; left; apply empty_mem, Eb|]. cbn [orb] in H.
  destruct (map3 _ o a b) as [s|] eqn:E.
  - destruct (is_empty s) eqn:Es; [|discriminate]. right; right; right. intros d.
    pose proof (map3_spec _ _ _ _ _ (fun _ => eq_refl) E d) as K. apply key3_merged in K; [|intros [] []; tauto]. rewrite !mem_true_opt in K.
    rewrite (proj1 (empty_mem s) Es d) in K. destruct (mem d o), (mem d a), (mem d b), K as [(K1 & K2)|(K1 & K2 & K3)]; split; congruence.
  - apply map3_none in E as (d & K). left. exists d. unfold key3 in K.
    destruct (opt_same _ (get a d) (get o d)) eqn:O1; [discriminate|]. destruct (opt_same _ (get b d) (get o d)) eqn:O2; [discriminate|].
    rewrite !mem_true_opt in O1, O2. destruct (mem d a), (mem d o), (mem d b); try discriminate; split; discriminate.
Qed.

Section ZTopic.
  Context {I : Type} `{OI : Ord I} {E C : Type}.
  Variable eval : E -> Z -> C -> evres.
  Notation ztopic := (ztopic I E).
  Notation zop := (zop I E C).
  Notation tstep := (fun st o => fst (t_step eval st (to_top o))).
  Notation exec := (tz_exec eval).
  Notation run := (tz_run eval).
  Notation commit := (tz_commit eval).
  Implicit Types x y : smap I (filt I E).

  (** Two views with the same filters, and the same filters having [d]. *)
  Definition shape x y : Prop := forall i, match get x i, get y i with Some f, Some g => same_but_docs f g | None, None => True | _, _ => False end.
  Definition hasv x i d : bool := match get x i with Some f => mem d (f_ids f) | None => false end.
  Definition alike d x y : Prop := shape x y /\ forall i, hasv x i d = hasv y i d.
  Lemma shape_refl x : shape x x.
  Proof. intros i. destruct (get x i); [|exact Logic.I]. unfold same_but_docs. auto. Qed.
  Lemma shape_trans x y z : shape x y -> shape y z -> shape x z.
  Proof.
    intros H1 H2 i. specialize (H1 i). specialize (H2 i). destruct (get x i), (get y i), (get z i); try tauto.
    unfold same_but_docs in *. intuition congruence.
  Qed.
  Lemma shape_sym x y : shape x y -> shape y x.
  Proof. intros H i. specialize (H i). destruct (get x i), (get y i); try tauto. unfold same_but_docs in *. intuition congruence. Qed.
  Lemma shape_keys x y : shape x y -> keys x = keys y.
  Proof.
    intros H. assert (K : keyset x = keyset y).
    { apply sset_ext. intros i. rewrite !mem_keyset. specialize (H i). unfold mem. destruct (get x i), (get y i); tauto. }
    unfold keyset in K. apply (f_equal keys) in K. rewrite !keys_mmap in K. exact K.
  Qed.
  Lemma shape_eq x y : shape x y -> (forall i d, hasv x i d = hasv y i d) -> x = y.
  Proof.
    intros S H. apply smap_ext. intros i. specialize (S i). assert (Hi := H i). unfold hasv in Hi.
    destruct (get x i) as [[p1 i1 e1 s1]|], (get y i) as [[p2 i2 e2 s2]|]; try tauto.
    destruct S as (S1 & S2 & S3). cbn in *. subst. do 2 f_equal. apply sset_ext. exact Hi.
  Qed.
  Lemma alike_put d x y i f g : alike d x y -> same_but_docs f g -> mem d (f_ids f) = mem d (f_ids g) -> alike d (put i f x) (put i g y).
  Proof.
    intros (S & H) Hs Hm. split; intros j.
    - rewrite !get_put. destruct (eqb j i); [exact Hs|apply S].
    - unfold hasv. rewrite !get_put. destruct (eqb j i); [exact Hm|apply H].
  Qed.
  Lemma alike_index d d' c ids : forall x y, alike d x y -> alike d (fst (index_filters eval d' c ids x)) (fst (index_filters eval d' c ids y)).
  Proof.
    induction ids as [|i ids IH]; intros x y H; cbn [index_filters]; [exact H|].
    pose proof (proj1 H i) as Hs. pose proof (proj2 H i) as Hm. unfold hasv in Hm.
    destruct (get x i) as [f|], (get y i) as [g|]; try tauto; [|apply IH, H].
    destruct Hs as (S1 & S2 & S3). unfold filt_index. rewrite S1, S3. destruct (f_python g) eqn:Eg; [|exact H].
    destruct (eval (f_expr g) d' c); apply IH, alike_put; try exact H; unfold same_but_docs; cbn; try tauto; try (splits; congruence).
    rewrite !mem_sadd, Hm. reflexivity.
  Qed.
  Lemma alike_step d o x y : match o with ZIndex _ _ | ZUnindex _ => True | _ => False end -> alike d x y -> alike d (tstep x o) (tstep y o).
  Proof.
    intros Ho H. destruct o as [f|i| |d' c|d']; try destruct Ho; cbn [to_top t_step].
    - unfold t_index. rewrite <- (shape_keys x y) by apply H. apply alike_index, H.
    - cbn [fst]. unfold t_unindex. destruct H as (S & H).
      assert (K : forall f, same_but_docs f (filt_unindex d' f) /\ mem d (f_ids (filt_unindex (E := E) (I := I) d' f)) = if eqb d d' then false else mem d (f_ids f)).
      { intros f. unfold filt_unindex, same_but_docs. destruct (mem d' (f_ids f)) eqn:Em; cbn [f_python f_id f_expr f_ids].
        - split; [auto|]. rewrite mem_srem. destruct (eqb d d'); reflexivity.
        - split; [auto|]. destruct (eqb d d') eqn:Ed; [apply eqb_eq in Ed as ->; exact Em|reflexivity]. }
      split; intros i; specialize (S i); specialize (H i); unfold hasv in *; rewrite !get_mmap; destruct (get x i) as [f|], (get y i) as [g|]; try tauto; cbn [option_map].
      + destruct (K f) as (K1 & _), (K g) as (K2 & _). unfold same_but_docs in *. intuition congruence.
      + destruct (K f) as (_ & ->), (K g) as (_ & ->). destruct (eqb d d'); [reflexivity|exact H].
  Qed.
  Lemma alike_ops d ops : documents_only ops -> forall x y, alike d x y -> alike d (fold_left tstep ops x) (fold_left tstep ops y).
  Proof.
    induction ops as [|o ops IH]; intros Ho x y H; [exact H|]. cbn [fold_left]. apply IH; [intros o' Ho'; apply Ho; right; exact Ho'|].
    apply alike_step; [apply Ho; left; reflexivity|exact H].
  Qed.

  Lemma same_refl (f : filt I E) : same_but_docs f f.
  Proof. unfold same_but_docs. auto. Qed.
  Lemma other_index d d' c ids : d' <> d -> forall x, alike d x (fst (index_filters eval d' c ids x)).
  Proof.
    intros Hd. induction ids as [|i ids IH]; intros x; cbn [index_filters]; [split; [apply shape_refl|reflexivity]|].
    destruct (get x i) as [f|] eqn:Ef; [|apply IH]. unfold filt_index. destruct (f_python f) eqn:Ep; [|split; [apply shape_refl|reflexivity]].
    assert (P : forall g, same_but_docs f g -> mem d (f_ids f) = mem d (f_ids g) -> alike d x (put i g x)).
    { intros g Hs Hm. replace x with (put i f x) at 1 by (apply smap_ext; intros j; rewrite get_put; destruct (eqb j i) eqn:Ej; [apply eqb_eq in Ej as ->; auto|reflexivity]).
      apply alike_put; [split; [apply shape_refl|reflexivity]|exact Hs|exact Hm]. }
    assert (T : forall y z, alike d x y -> alike d y z -> alike d x z) by (intros y z (S1 & H1) (S2 & H2); split; [eapply shape_trans; eassumption|intros j; rewrite H1; apply H2]).
    destruct (eval (f_expr f) d' c); (eapply T; [apply P|apply IH]); unfold same_but_docs; cbn; auto.
    rewrite mem_sadd. destruct (eqb d d') eqn:Ed; [apply eqb_eq in Ed; congruence|reflexivity].
  Qed.
  Lemma other_ops d ops : documents_only ops -> ~ In d (docs_of ops) -> forall x, alike d x (fold_left tstep ops x).
  Proof.
    induction ops as [|o ops IH]; intros Ho Hd x; [split; [apply shape_refl|reflexivity]|]. cbn [fold_left].
    assert (T : forall y z, alike d x y -> alike d y z -> alike d x z) by (intros y z (S1 & H1) (S2 & H2); split; [eapply shape_trans; eassumption|intros j; rewrite H1; apply H2]).
    eapply T; [|apply IH; [intros o' Ho'; apply Ho; right; exact Ho'|intros Hi; apply Hd; cbn; apply in_app_iff; right; exact Hi]].
    specialize (Ho o (or_introl eq_refl)). destruct o as [f|i| |d' c|d']; try destruct Ho; cbn [to_top t_step fst].
    - apply other_index. intros ->. apply Hd. left. reflexivity.
    - assert (N : eqb d d' = false) by (apply eqb_neq; intros ->; apply Hd; left; reflexivity).
      unfold t_unindex. split; intros i; unfold hasv; rewrite get_mmap; destruct (get x i) as [f|]; cbn [option_map]; try exact Logic.I; try reflexivity.
      + unfold filt_unindex, same_but_docs. destruct (mem d' (f_ids f)); auto.
      + unfold filt_unindex. destruct (mem d' (f_ids f)); [|reflexivity]. cbn [f_ids]. rewrite mem_srem, N. reflexivity.
  Qed.

  (** Calls about documents leave the filters alone, and the Sets that belong to none. *)
  Lemma exec_docs ops : documents_only ops -> forall st : ztopic, tz_filters (exec ops st) = tz_filters st /\ tz_gen (exec ops st) = tz_gen st /\
    forall l, ~ In l (map q_set (map snd (elts (tz_filters st)))) -> load (tz_heap (exec ops st)) l = load (tz_heap st) l.
  Proof.
    induction ops as [|o ops IH]; intros Ho st; [auto|]. unfold tz_exec. cbn [fold_left]. fold (exec ops (tz_step eval st o)).
    destruct (IH (fun o' H => Ho o' (or_intror H)) (tz_step eval st o)) as (H1 & H2 & H3).
    specialize (Ho o (or_introl eq_refl)). destruct o as [f|i| |d' c|d']; try destruct Ho; cbn [tz_step on_heap tz_filters tz_gen tz_heap] in *.
    - splits; auto. intros l Hl. rewrite H3 by exact Hl. apply (mi_other _ _ _ (mild_index eval d' c _ _ (incl_refl _) (tz_heap st)) l Hl).
    - splits; auto. intros l Hl. rewrite H3 by exact Hl. apply (mi_other _ _ _ (mild_unindex (E := E) d' _ _ (incl_refl _) (tz_heap st)) l Hl).
  Qed.
  Lemma docs_no_clear ops : documents_only ops -> clears (I := I) (E := E) (C := C) ops = false.
  Proof.
    induction ops as [|o ops IH]; intros Ho; [reflexivity|]. cbn. pose proof (Ho o (or_introl eq_refl)) as H. destruct o; try destruct H; apply IH; intros o' H'; apply Ho; right; exact H'.
  Qed.
  Lemma same_objects vs (cur snap : ztopic) : vsinv vs -> hd_error vs = Some cur -> In snap vs ->
    (forall i, filter_object cur i = filter_object snap i) -> tz_filters cur = tz_filters snap.
  Proof.
    intros (c & Hc & HF) Hc' Hs Ho. rewrite Hc in Hc'. injection Hc' as ->. rewrite Forall_forall in HF. destruct (HF _ Hs) as (Ws & Ev).
    apply smap_ext. intros i. apply (obj_a snap cur Ws Ev i), Ho.
  Qed.
  Lemma has_v (st : ztopic) i d : has st i d = hasv (view st) i d.
  Proof. reflexivity. Qed.
  Lemma view_shape (s s' : ztopic) : tz_filters s = tz_filters s' -> shape (view s) (view s').
  Proof. intros H i. rewrite !view_at, H. destruct (get (tz_filters s') i); cbn; [|exact Logic.I]. unfold same_but_docs. auto. Qed.

  Lemma tz_serial sch i ops st cur snap : commit (run sch) i ops = Some st ->
    hd_error (run sch) = Some cur -> nth_error (run sch) i = Some snap -> cleared_since snap cur = false ->
    (forall j, filter_object cur j = filter_object snap j) -> documents_only ops ->
    (forall d j, In d (docs_of ops) -> has cur j d = has snap j d) ->
    view st = fold_left tstep ops (view cur).
  Proof.
    intros Hc H1 H2 Hg Ho Hd Hs. pose proof (vsinv_run eval sch) as Hv.
    pose proof (same_objects _ _ _ Hv H1 (nth_error_In _ _ H2) Ho) as Ef.
    destruct (commit_ok eval _ _ _ _ Hv Hc) as (cur' & snap' & H1' & H2' & _ & _ & Vo & T).
    rewrite H1 in H1'. injection H1' as <-. rewrite H2 in H2'. injection H2' as <-.
    rewrite Hg, (docs_no_clear _ Hd) in T. cbn [tcommitted] in T. set (own := exec ops (tz_begin cur snap)) in *.
    assert (Eo : tz_filters own = tz_filters snap) by (exact (proj1 (exec_docs ops Hd (tz_begin cur snap)))).
    assert (Oo : forall j, filter_object own j = filter_object snap j) by (intros j; unfold filter_object; rewrite Eo; reflexivity).
    apply shape_eq.
    - eapply shape_trans; [apply shape_sym; intros j; exact (proj1 (proj2 (proj2 (T j)) (Oo j) (Ho j)))|].
      eapply shape_trans; [apply view_shape; symmetry; exact Ef|].
      clear -Hd. revert Hd. generalize (view cur). induction ops as [|o ops IH]; intros x Hd; [apply shape_refl|]. cbn [fold_left].
      eapply shape_trans; [|apply IH; intros o' Ho'; apply Hd; right; exact Ho'].
      specialize (Hd o (or_introl eq_refl)).
      set (d := match o with ZIndex d _ | ZUnindex d => d + 1 | _ => 0 end).
      apply (other_ops d [o]); [intros o' [<-|[]]; exact Hd|]. destruct o; cbn; try tauto; unfold d; intros [H|[]]; lia.
    - intros j d. rewrite <- has_v. destruct (proj2 (proj2 (proj2 (T j)) (Oo j) (Ho j)) d) as (T1 & T2).
      destruct (in_dec Z.eq_dec d (docs_of ops)) as [Hi|Hi].
      + assert (Ha : alike d (view cur) (view snap)) by (split; [apply view_shape, Ef|intros k; apply Hs, Hi]).
        pose proof (proj2 (alike_ops d ops Hd _ _ Ha) j) as H. rewrite H, <- Vo, <- has_v.
        destruct (Bool.bool_dec (has own j d) (has snap j d)) as [D|D]; [rewrite (T1 D), (Hs d j Hi); congruence|apply T2, D].
      + rewrite <- (proj2 (other_ops d ops Hd Hi (view cur)) j), <- has_v. apply T1.
        rewrite !has_v, Vo. symmetry. apply (proj2 (other_ops d ops Hd Hi (view snap)) j).
  Qed.

  Lemma tz_latest sch ops cur : hd_error (run sch) = Some cur -> exists st,
    commit (run sch) 0 ops = Some st /\ view st = fold_left tstep ops (view cur).
  Proof.
    intros H1. pose proof (vsinv_run eval sch) as Hv.
    assert (exists st, commit (run sch) 0 ops = Some st) as (st & Hc).
    { unfold tz_commit. destruct (run sch) as [|c vs]; [discriminate|]. injection H1 as ->. cbn [nth_error].
      destruct Hv as (c' & Hc' & HF). injection Hc' as <-. pose proof (Forall_inv HF) as (Wc & Ec).
      destruct (begin_ok cur cur Wc Ec) as (Wb & _). destruct (exec_ok eval ops _ Wb) as (_ & Eo & _).
      unfold tz_merge. rewrite Z.eqb_refl. destruct (tz_gen (exec ops (tz_begin cur cur)) =? tz_gen cur); [|eauto].
      rewrite map3_alone. 2: { intros k x y. unfold key3. replace (opt_same same_filter x x) with true; [reflexivity|]. destruct x as [q|]; [|reflexivity]. cbn. symmetry. apply Z.eqb_refl. }
      destruct (heap3_alone (tz_heap cur) (tz_heap (exec ops (tz_begin cur cur)))) as (hp & ->); [exact (ev_next _ _ Eo)|eauto]. }
    exists st. split; [exact Hc|]. destruct (commit_ok eval _ _ _ _ Hv Hc) as (cur' & snap' & H1' & H2' & _ & _ & Vo & T).
    rewrite H1 in H1'. injection H1' as <-. assert (snap' = cur) as ->.
    { destruct (run sch) as [|c vs]; [discriminate|]. cbn in H1, H2'. congruence. }
    rewrite <- Vo. set (own := exec ops (tz_begin cur cur)) in *. unfold cleared_since in T. rewrite Z.eqb_refl in T. cbn [negb] in T.
    destruct (clears ops); cbn [tcommitted] in T; [exact T|].
    apply smap_ext. intros j. destruct (T j) as (T1 & _ & T3).
    assert (D : {filter_object own j = filter_object cur j} + {filter_object own j <> filter_object cur j}) by (decide equality; apply Z.eq_dec).
    destruct D as [D|D]; [|apply T1, D]. destruct (T3 D eq_refl) as (T4 & T5).
    assert (Ej : get (tz_filters own) j = get (tz_filters cur) j).
    { destruct Hv as (c & Hc' & HF). rewrite H1 in Hc'. injection Hc' as <-. rewrite Forall_forall in HF.
      destruct (HF cur) as (Wc & Ec). { destruct (run sch); [discriminate|]. injection H1 as ->. left. reflexivity. }
      destruct (begin_ok cur cur Wc Ec) as (Wb & _). destruct (exec_ok eval ops _ Wb) as (_ & Eo & _).
      apply (obj_b cur cur own Wc Ec Eo j), D. }
    assert (Hh : forall d, has st j d = has own j d).
    { intros d. destruct (T5 d) as (T6 & T7). destruct (Bool.bool_dec (has own j d) (has cur j d)) as [X|X]; [rewrite (T6 X); congruence|apply T7, X]. }
    unfold has in Hh. rewrite (view_at cur) in T4. rewrite (view_at own) in *. rewrite Ej in *.
    destruct (get (tz_filters cur) j) as [q|], (get (view st) j) as [g|]; cbn in *; try tauto.
    f_equal. destruct T4 as (P1 & P2 & P3). destruct g; cbn in *. subst. f_equal. apply sset_ext. exact Hh.
  Qed.

  Lemma run_snoc sch t : run (sch ++ [t]) = tz_db_step eval (run sch) t.
  Proof. unfold tz_run. rewrite fold_left_app. reflexivity. Qed.
  Lemma all_ops_app (a b : list (nat * list zop)) : all_ops (a ++ b) = all_ops a ++ all_ops b.
  Proof. unfold all_ops. rewrite map_app, concat_app. reflexivity. Qed.
  Lemma tz_one_client sch : (forall t, In t sch -> fst t = 0%nat) -> exists cur, hd_error (run sch) = Some cur /\
    view cur = t_run eval (map to_top (all_ops sch)) /\ length (run sch) = S (length sch).
  Proof.
    induction sch as [|[i ops] sch IH] using rev_ind; intros H0.
    - exists tz_new. split; [reflexivity|]. split; [|reflexivity]. apply smap_ext. intros i. rewrite view_at. cbn [tz_new tz_filters]. rewrite get_empty. reflexivity.
    - destruct IH as (cur & Hc & Hv & Hl); [intros t Ht; apply H0, in_app_iff; auto|].
      assert (i = 0%nat) as -> by (apply (H0 (i, ops)), in_app_iff; right; left; reflexivity).
      destruct (tz_latest sch ops cur Hc) as (st & Hs & Hw). exists st. rewrite run_snoc. unfold tz_db_step. cbn [fst snd]. rewrite Hs.
      splits.
      + reflexivity.
      + rewrite Hw, Hv, all_ops_app, map_app. unfold t_run. rewrite fold_left_app. unfold all_ops. cbn [map concat snd]. rewrite app_nil_r.
        generalize (fold_left (fun st o => fst (t_step eval st o)) (map to_top (concat (map snd sch))) empty). clear.
        induction ops as [|o ops IH]; intros x; [reflexivity|]. cbn [map fold_left]. apply IH.
      + cbn [length]. rewrite Hl, app_length. cbn. lia.
  Qed.

  Lemma tz_clash sch i ops cur snap own : hd_error (run sch) = Some cur -> nth_error (run sch) i = Some snap -> cleared_since snap cur = false ->
    (forall j, filter_object cur j = filter_object snap j) -> documents_only ops -> view own = fold_left tstep ops (view snap) ->
    (commit (run sch) i ops = None <-> exists j, clash snap cur own j).
  Proof.
    intros H1 H2 Hg Ho Hd Vown. pose proof (vsinv_run eval sch) as Hv. pose proof (same_objects _ _ _ Hv H1 (nth_error_In _ _ H2) Ho) as Ef.
    destruct Hv as (c & Hc & HF). rewrite H1 in Hc. injection Hc as <-. rewrite Forall_forall in HF.
    destruct (HF snap (nth_error_In _ _ H2)) as (Ws & Ev).
    destruct (HF cur) as (Wc & _). { destruct (run sch); [discriminate|]. injection H1 as ->. left. reflexivity. }
    destruct (begin_ok cur snap Ws Ev) as (Wb & Vb). destruct (exec_ok eval ops _ Wb) as (Wo & Eo & Vo & _).
    destruct (exec_docs ops Hd (tz_begin cur snap)) as (Fo & Go & Lo).
    set (b := exec ops (tz_begin cur snap)) in *. cbn [tz_begin tz_filters tz_gen tz_heap] in Fo, Go, Lo.
    assert (Hb : forall j d, has own j d = has b j d) by (intros j d; unfold has; rewrite Vown, Vo, Vb; reflexivity).
    assert (Hcm : commit (run sch) i ops = None <-> heap3 (tz_heap snap) (tz_heap cur) (tz_heap b) = None).
    { unfold tz_commit. destruct (run sch) as [|c vs]; [discriminate|]. injection H1 as ->. rewrite H2. fold b. unfold tz_merge.
      unfold cleared_since in Hg. apply Bool.negb_false_iff in Hg. rewrite Hg, Go, Z.eqb_refl, Ef, Fo.
      rewrite map3_alone. 2: { intros k x y. unfold key3. replace (opt_same same_filter x x) with true; [reflexivity|]. destruct x as [q|]; [|reflexivity]. cbn. symmetry. apply Z.eqb_refl. }
      destruct (heap3 _ _ _); split; (discriminate || reflexivity). }
    rewrite Hcm. clear Hcm.
    assert (HH : forall j q d, get (tz_filters snap) j = Some q ->
       has snap j d = mem d (snd (load (tz_heap snap) (q_set q))) /\ has cur j d = mem d (snd (load (tz_heap cur) (q_set q))) /\ has own j d = mem d (snd (load (tz_heap b) (q_set q)))).
    { intros j q d Hq. rewrite Hb, !has_at, Ef, Fo, Hq. auto. }
    split.
    - unfold heap3. set (f := fun (l : Z) (x y z : option obj) => _). destruct (map3 f _ _ _) eqn:E3; [discriminate|]. intros _.
      apply map3_none in E3 as (l & Hl). unfold f in Hl. destruct (next (tz_heap cur) <=? l); [discriminate|].
      destruct (next (tz_heap snap) <=? l); [discriminate|]. unfold option_map in Hl.
      change (the_obj (get (cells (tz_heap snap)) l)) with (load (tz_heap snap) l) in Hl. change (the_obj (get (cells (tz_heap cur)) l)) with (load (tz_heap cur) l) in Hl.
      change (the_obj (get (cells (tz_heap b)) l)) with (load (tz_heap b) l) in Hl.
      destruct (obj3 _ _ _) eqn:E3; [discriminate|]. clear Hl. unfold obj3 in E3.
      destruct (obj_same (load (tz_heap cur) l) _) eqn:O1; [discriminate|]. destruct (obj_same (load (tz_heap b) l) _) eqn:O2; [discriminate|].
      destruct (set3 _ _ _) eqn:S3; [discriminate|]. clear E3.
      assert (Hin : In l (map q_set (map snd (elts (tz_filters snap))))).
      { destruct (in_dec Z.eq_dec l (map q_set (map snd (elts (tz_filters snap))))) as [H|H]; [exact H|]. exfalso. apply Lo in H.
        change (load (mkHeap (cells (tz_heap snap)) (next (tz_heap cur))) l) with (load (tz_heap snap) l) in H. rewrite H in O2.
        rewrite (proj2 (obj_same_eq _ _) eq_refl) in O2. discriminate. }
      apply in_map_iff in Hin as (q & <- & Hq). apply in_map_iff in Hq as ((j & q') & Eq & Hq). cbn in Eq. subst q'. apply get_In in Hq.
      apply set3_none in S3 as (N1 & N2 & N3). exists j. destruct (set_differ _ _ N1) as (d1 & D1). destruct (set_differ _ _ N2) as (d2 & D2).
      assert (HJ := fun d => HH j q d Hq). split; [|split].
      + exists d1. destruct (HJ d1) as (-> & -> & _). exact D1.
      + exists d2. destruct (HJ d2) as (-> & _ & ->). exact D2.
      + destruct N3 as [(d & N3 & N4)|[N3|[N3|N3]]]; [left|right; left|right; right; left|right; right; right].
        * exists d. destruct (HJ d) as (-> & -> & ->). auto.
        * intros d. destruct (HJ d) as (_ & -> & _). auto.
        * intros d. destruct (HJ d) as (_ & _ & ->). auto.
        * intros d. destruct (HJ d) as (-> & -> & ->). auto.
    - intros (j & (d1 & D1) & (d2 & D2) & Hx). destruct (heap3 _ _ _) as [hp|] eqn:Eh; [exfalso|reflexivity].
      destruct (get (tz_filters snap) j) as [q|] eqn:Eq. 2: { apply D1. rewrite !has_at, Ef, Eq. reflexivity. }
      assert (HJ := fun d => HH j q d Eq). destruct (heap3_spec _ _ _ _ Eh) as (_ & _ & _ & H3).
      pose proof (wf_next _ Ws _ _ Eq) as L. pose proof (ev_next _ _ Ev) as L'. specialize (H3 (q_set q) ltac:(lia) L).
      apply obj3_merged in H3 as [[H3 _]|[(_ & H3 & _)|[(N1 & N2 & N3 & _ & H3)|[H3|H3]]]].
      + apply D1. destruct (HJ d1) as (-> & -> & _). rewrite H3. reflexivity.
      + apply D2. destruct (HJ d2) as (-> & _ & ->). rewrite H3. reflexivity.
      + destruct Hx as [(d & X1 & X2)|[X|[X|X]]].
        * destruct (HJ d) as (K1 & K2 & K3). rewrite K1, K2, K3 in *. destruct (H3 d) as [(Y1 & _)|(_ & Y1 & _)]; congruence.
        * apply Bool.not_true_iff_false in N1. apply N1, empty_mem. intros d. destruct (HJ d) as (_ & <- & _). apply X.
        * apply Bool.not_true_iff_false in N2. apply N2, empty_mem. intros d. destruct (HJ d) as (_ & _ & <-). apply X.
        * apply Bool.not_true_iff_false in N3. apply N3, empty_mem. intros d. specialize (X d). destruct (HJ d) as (K1 & K2 & K3). rewrite K1, K2, K3 in X.
          apply Bool.not_true_iff_false. intros Y. destruct X as (X1 & X2). destruct (H3 d) as [(Y1 & Y2)|(Y1 & Y2 & Y3)].
          -- apply X2; congruence.
          -- apply X1; congruence.
      + rewrite (wf_flag _ Wc), (wf_flag _ Ws) in H3. congruence.
      + rewrite (wf_flag _ Wo), (wf_flag _ Ws) in H3. congruence.
  Qed.
End ZTopic.
