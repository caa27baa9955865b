(** * Lemmas: field and keyword indexes in a ZODB *)
From Verif Require Import L_ptext S_pindex M_pindex M_field M_keyword SMap PyVal Ord.

Section PSetsL.
  Context {K : Type} `{OK : Ord K} {C R : Type}.
  Variable nothing : C.
  Notation ist := (ist K C R).
  Implicit Type st : ist.

  Record ip_ok (c : iparts K R) : Prop := mkIpok { pk_fwd : sok (ip_fwd c); pk_rev : sok (ip_rev c); pk_num : nok (ip_num c) }.
  (** no two keys share a set *)
  Definition iown (n : Z) (m : smap K Z) : Prop :=
    forall k r, get m k = Some r -> r < n /\ forall k', get m k' = Some r -> k' = k.
  Record iinv st : Prop := mkIinv {
    v_parts : ip_ok (i_parts st); v_old : forall c, i_old st = Some c -> ip_ok c;
    v_sets : sok (i_sets st); v_thr : nok (i_thr st);
    v_live : iown (i_fresh st) (live (ip_fwd (i_parts st)));
    v_saved : iown (i_fresh st) (saved (ip_fwd (i_base st)))
  }.
  Lemma iown_empty n : iown n empty.
  Proof. intros k r E. discriminate E. Qed.
  Lemma iown_mono n n' m : n <= n' -> iown n m -> iown n' m.
  Proof. intros Hn H k r E. destruct (H k r E) as [H1 H2]. split; [lia|exact H2]. Qed.
  Lemma iown_del n k m : iown n m -> iown n (del k m).
  Proof.
    intros H k1 r E. rewrite get_del in E. destruct (eqb k1 k) eqn:E1; [discriminate|]. destruct (H _ _ E) as [H1 H2].
    split; [exact H1|]. intros k' E'. rewrite get_del in E'. destruct (eqb k' k); [discriminate|]. exact (H2 _ E').
  Qed.
  Lemma iown_new n k m : iown n m -> iown (n + 1) (put k n m).
  Proof.
    intros H k1 r E. rewrite get_put in E. destruct (eqb k1 k) eqn:E1.
    - injection E as <-. apply eqb_eq in E1 as ->. split; [lia|]. intros k' E'. rewrite get_put in E'.
      destruct (eqb k' k) eqn:E2; [apply eqb_eq in E2; exact E2|]. destruct (H _ _ E') as [H1 _]. lia.
    - destruct (H _ _ E) as [H1 H2]. split; [lia|]. intros k' E'. rewrite get_put in E'.
      destruct (eqb k' k) eqn:E2; [|exact (H2 _ E')]. injection E' as <-. lia.
  Qed.

  (** what the index contains in memory, and what is saved *)
  Record iview := mkV { w_fwd : smap K C; w_rev : smap Z R; w_num : Z; w_thr : Z }.
  Notation view T m := (mmap (fun _ : K => content nothing T) m).
  Definition lv st : iview :=
    mkV (view (live (i_sets st)) (live (ip_fwd (i_parts st)))) (live (ip_rev (i_parts st))) (n_live (ip_num (i_parts st))) (n_live (i_thr st)).
  Definition sv st : iview :=
    mkV (view (saved (i_sets st)) (saved (ip_fwd (i_base st)))) (saved (ip_rev (i_base st))) (n_saved (ip_num (i_base st))) (n_saved (i_thr st)).
  (** a step from [st] to [st'] which does to the contents what [g] does *)
  Definition does (g : iview -> iview) st st' : Prop := iinv st' /\ lv st' = g (lv st) /\ sv st' = sv st.
  Lemma does_id st : iinv st -> does (fun v => v) st st.
  Proof. intros H. split; [exact H|]. split; reflexivity. Qed.
  Lemma does_trans g h st st1 st2 : does g st st1 -> does h st1 st2 -> does (fun v => h (g v)) st st2.
  Proof. intros (A1 & A2 & A3) (B1 & B2 & B3). split; [exact B1|]. split; congruence. Qed.
  Definition g_put k x v := mkV (put k x (w_fwd v)) (w_rev v) (w_num v) (w_thr v).
  Definition g_del k v := mkV (del k (w_fwd v)) (w_rev v) (w_num v) (w_thr v).
  Definition g_put_rev d x v := mkV (w_fwd v) (put d x (w_rev v)) (w_num v) (w_thr v).
  Definition g_del_rev d v := mkV (w_fwd v) (del d (w_rev v)) (w_num v) (w_thr v).
  Definition g_change n v := mkV (w_fwd v) (w_rev v) (w_num v + n) (w_thr v).
  Definition g_thr n v := mkV (w_fwd v) (w_rev v) (w_num v) n.
  Definition g_clear v := mkV empty empty 0 (w_thr v).

  Lemma lookup_view k st : get (w_fwd (lv st)) k = option_map snd (i_lookup nothing k st).
  Proof. unfold lv, i_lookup. cbn [w_fwd]. rewrite get_mmap. destruct (get _ k); reflexivity. Qed.
  Lemma keys_view k st : In k (keys (w_fwd (lv st))) <-> In k (keys (live (ip_fwd (i_parts st)))).
  Proof. unfold lv. cbn [w_fwd]. rewrite keys_mmap. reflexivity. Qed.

  Lemma keep_ip c st : iinv st -> ip_ok c -> saved (ip_fwd c) = saved (ip_fwd (i_parts st)) ->
    saved (ip_rev c) = saved (ip_rev (i_parts st)) -> n_saved (ip_num c) = n_saved (ip_num (i_parts st)) ->
    iown (i_fresh st) (live (ip_fwd c)) -> iinv (set_parts_i c st) /\ sv (set_parts_i c st) = sv st.
  Proof.
    intros [] Hc H1 H2 H3 H6. split.
    - constructor; cbn; auto. unfold i_base in *. cbn. destruct (i_old st); [assumption|]. rewrite H1. assumption.
    - unfold sv, i_base. cbn. destruct (i_old st); [reflexivity|]. rewrite H1, H2, H3. reflexivity.
  Qed.
  Lemma does_put_rev d x st : iinv st -> does (g_put_rev d x) st (i_put_rev d x st).
  Proof.
    intros Hi. destruct (v_parts _ Hi). unfold does. rewrite and_comm. split; [|].
    - split; [reflexivity|]. apply keep_ip; cbn; auto using v_live. constructor; cbn; auto using @sok_put.
    - apply keep_ip; cbn; auto using v_live. constructor; cbn; auto using @sok_put.
  Qed.
  Lemma does_del_rev d st : iinv st -> does (g_del_rev d) st (i_del_rev d st).
  Proof.
    intros Hi. destruct (v_parts _ Hi). unfold does. rewrite and_comm. split; [|].
    - split; [reflexivity|]. apply keep_ip; cbn; auto using v_live. constructor; cbn; auto using @sok_del.
    - apply keep_ip; cbn; auto using v_live. constructor; cbn; auto using @sok_del.
  Qed.
  Lemma does_change n st : iinv st -> does (g_change n) st (i_change n st).
  Proof.
    intros Hi. destruct (v_parts _ Hi). unfold does. rewrite and_comm. split; [|].
    - split; [reflexivity|]. apply keep_ip; cbn; auto using v_live. constructor; cbn; auto using nok_change.
    - apply keep_ip; cbn; auto using v_live. constructor; cbn; auto using nok_change.
  Qed.
  Lemma does_drop k st : iinv st -> does (g_del k) st (i_drop k st).
  Proof.
    intros Hi. destruct (v_parts _ Hi) as [P1 P2 P3].
    destruct (keep_ip (mkIP (s_del k (ip_fwd (i_parts st))) (ip_rev (i_parts st)) (ip_num (i_parts st))) st) as [A B]; cbn; auto.
    - constructor; cbn; auto using @sok_del.
    - apply iown_del, v_live, Hi.
    - split; [exact A|]. split; [|exact B]. unfold lv, g_del. cbn. f_equal. apply smap_ext. intros x.
      rewrite get_mmap, !get_del, get_mmap. destruct (eqb x k); reflexivity.
  Qed.
  Lemma does_thr n st : iinv st -> does (g_thr n) st (i_set_thr n st).
  Proof. intros []. split; [|split; reflexivity]. constructor; cbn; auto using nok_set. Qed.
  Lemma does_clear st : iinv st -> does g_clear st (i_clear st).
  Proof.
    intros [I1 I2 I3 I4 I5 I6]. split; [|split].
    - constructor; cbn [i_clear i_parts i_old i_sets i_thr i_fresh]; auto.
      + constructor; try apply sok_new; apply nok_new.
      + intros c. destruct (i_old st) eqn:E; intros E'; injection E' as <-; auto.
      + apply iown_empty.
      + unfold i_base in *. cbn [i_clear i_old]. destruct (i_old st); assumption.
    - unfold lv, g_clear. cbn. f_equal. apply elts_inj. reflexivity.
    - unfold sv, i_base. cbn [i_clear i_old i_sets i_thr]. destruct (i_old st); reflexivity.
  Qed.
  Lemma view_fresh_i n T t (m : smap K Z) : iown n m -> view (put n t T) m = view T m.
  Proof.
    intros H. apply smap_ext. intros x. rewrite !get_mmap. destruct (get m x) as [r|] eqn:E'; cbn; [|reflexivity].
    unfold content. rewrite get_put_other; [reflexivity|]. intros ->. destruct (H _ _ E') as [H1 _]. lia.
  Qed.
  Lemma does_write k r x x0 st : iinv st -> i_lookup nothing k st = Some (r, x0) -> does (g_put k x) st (i_write r x st).
  Proof.
    intros Hi E. unfold i_lookup in E. destruct (get (live (ip_fwd (i_parts st))) k) as [r'|] eqn:E1; [|discriminate]. injection E as -> _.
    destruct Hi as [I1 I2 I3 I4 I5 I6]. split; [constructor; cbn; auto using @sok_put|]. split; [|reflexivity].
    unfold lv, g_put. cbn. f_equal. destruct (I5 _ _ E1) as [_ H2]. apply smap_ext. intros y. rewrite get_mmap, get_put, get_mmap.
    destruct (eqb y k) eqn:Ex.
    - apply eqb_eq in Ex as ->. rewrite E1. unfold content. rewrite get_put_same. reflexivity.
    - destruct (get _ y) as [r'|] eqn:E'; [|reflexivity]. unfold content. rewrite get_put_other; [reflexivity|].
      intros ->. rewrite (H2 _ E') in Ex. rewrite eqb_refl in Ex. discriminate.
  Qed.
  Lemma does_add k x st : iinv st -> does (g_put k x) st (i_add_set k x st).
  Proof.
    intros [I1 I2 I3 I4 I5 I6]. split; [|split].
    - destruct I1. constructor; cbn; auto using @sok_put.
      + constructor; cbn; auto using @sok_put.
      + apply iown_new. exact I5.
      + unfold i_base in *. cbn. destruct (i_old st); (eapply iown_mono; [|eassumption]; lia).
    - unfold lv, g_put. cbn. f_equal. rewrite <- (view_fresh_i (i_fresh st) (live (i_sets st)) x) by exact I5.
      apply smap_ext. intros y. rewrite get_mmap, !get_put, get_mmap. destruct (eqb y k); [|reflexivity].
      unfold content. rewrite get_put_same. reflexivity.
    - unfold sv, i_base. cbn. destruct (i_old st); reflexivity.
  Qed.
  Lemma lookup_added k x st : i_lookup nothing k (i_add_set k x st) = Some (i_fresh st, x).
  Proof.
    unfold i_lookup, content. cbn [i_add_set i_parts ip_fwd i_sets s_put live]. rewrite get_put_same, get_put_same. reflexivity.
  Qed.

  Lemma ip_ok_same a b c : ip_ok (mkIP (mkStored a a empty) (mkStored b b empty) (mkCell c c false)).
  Proof. constructor; try apply sok_same. apply nok_same. Qed.
  Lemma i_commit_ok ks st : iinv st -> iinv (i_commit ks st) /\ lv (i_commit ks st) = lv st /\ sv (i_commit ks st) = lv st.
  Proof.
    intros [I1 I2 I3 I4 I5 I6].
    assert (E : i_commit ks st = mkI (mkIP (mkStored (live (ip_fwd (i_parts st))) (live (ip_fwd (i_parts st))) empty)
        (mkStored (live (ip_rev (i_parts st))) (live (ip_rev (i_parts st))) empty)
        (mkCell (n_live (ip_num (i_parts st))) (n_live (ip_num (i_parts st))) false)) None
        (mkStored (live (i_sets st)) (live (i_sets st)) empty) (i_fresh st) (mkCell (n_live (i_thr st)) (n_live (i_thr st)) false)).
    { unfold i_commit. rewrite (commit_eq _ _ I3), (n_commit_eq _ I4). f_equal. destruct (i_old st); [reflexivity|].
      destruct I1 as [P1 P2 P3]. unfold ip_commit. rewrite (commit_eq _ _ P1), (commit_eq _ _ P2), (n_commit_eq _ P3). reflexivity. }
    rewrite E. split; [|split; reflexivity]. constructor; cbn; auto using @sok_same, nok_same, ip_ok_same; discriminate.
  Qed.
  Lemma i_abort_ok ks st : iinv st -> iinv (i_abort ks st) /\ lv (i_abort ks st) = sv st /\ sv (i_abort ks st) = sv st.
  Proof.
    intros [I1 I2 I3 I4 I5 I6].
    assert (Hb : ip_ok (i_base st)) by (unfold i_base; destruct (i_old st); auto).
    assert (E : i_abort ks st = mkI (mkIP (mkStored (saved (ip_fwd (i_base st))) (saved (ip_fwd (i_base st))) empty)
        (mkStored (saved (ip_rev (i_base st))) (saved (ip_rev (i_base st))) empty)
        (mkCell (n_saved (ip_num (i_base st))) (n_saved (ip_num (i_base st))) false)) None
        (mkStored (saved (i_sets st)) (saved (i_sets st)) empty) (i_fresh st) (mkCell (n_saved (i_thr st)) (n_saved (i_thr st)) false)).
    { unfold i_abort. rewrite (abort_eq _ _ I3), (n_abort_eq _ I4). f_equal.
      destruct Hb as [P1 P2 P3]. unfold ip_abort. rewrite (abort_eq _ _ P1), (abort_eq _ _ P2), (n_abort_eq _ P3). reflexivity. }
    rewrite E. split; [|split; reflexivity]. constructor; cbn; auto using @sok_same, nok_same, ip_ok_same; discriminate.
  Qed.
  Lemma i_restart_ok st : iinv st -> iinv (i_restart st) /\ lv (i_restart st) = sv st /\ sv (i_restart st) = sv st.
  Proof.
    intros [I1 I2 I3 I4 I5 I6]. split; [|split; reflexivity].
    constructor; [apply ip_ok_same|discriminate|apply sok_same|apply nok_same|exact I6|exact I6].
  Qed.
  Lemma ip_evict_eq ks (c : iparts K R) : ip_ok c -> ip_evict ks c = c.
  Proof. intros [P1 P2 P3]. unfold ip_evict. rewrite (evict_eq _ _ P1), (evict_eq _ _ P2), (n_evict_eq _ P3). destruct c; reflexivity. Qed.
  Lemma i_evict_eq ks st : iinv st -> i_evict ks st = st.
  Proof.
    intros [I1 I2 I3 I4 I5 I6]. unfold i_evict. rewrite (evict_eq _ _ I3), (n_evict_eq _ I4). destruct st as [c o s n t]. cbn in *.
    destruct o as [c'|]; cbn.
    - rewrite (ip_evict_eq _ _ (I2 _ eq_refl)). reflexivity.
    - rewrite (ip_evict_eq _ _ I1). reflexivity.
  Qed.
  Lemma iinv_new : iinv i_new.
  Proof.
    assert (Hp : ip_ok (ip_new (K := K) (R := R))) by (constructor; try apply sok_new; apply nok_new).
    constructor; cbn; auto using @sok_new, iown_empty, nok_same; discriminate.
  Qed.

  (** ** Runs *)
  Context {O S : Type}.
  Variable call : O -> ist -> ist * res unit.
  Variable step : S -> O -> S * res unit.
  Variable new : S.
  Variable to : iview -> S.
  Hypothesis sim : forall o st, iinv st ->
    iinv (fst (call o st)) /\ sv (fst (call o st)) = sv st /\
    to (lv (fst (call o st))) = fst (step (to (lv st)) o) /\ snd (call o st) = snd (step (to (lv st)) o).
  Hypothesis to_new : to (lv i_new) = new.
  Notation aft l := (fold_left (fun s o => fst (step s o)) l new).

  Lemma run_inv evs st out c :
    iinv st -> to (lv st) = aft (fst c) -> to (sv st) = aft (snd c) ->
    let st' := fst (fold_left (i_event call) evs (st, out)) in let c' := fold_left force_event evs c in
    iinv st' /\ to (lv st') = aft (fst c') /\ to (sv st') = aft (snd c').
  Proof using sim.
    revert st out c. induction evs as [|e evs IH]; intros st out c Hi Hl Hs; [cbn; auto|]. cbn [fold_left].
    destruct e as [o|ks|ks|ks|]; cbn [i_event fst snd].
    - destruct (sim o st Hi) as (A1 & A2 & A3 & _). destruct (call o st) as [st1 r]. cbn [fst] in *.
      apply IH; [exact A1| |rewrite A2; exact Hs]. cbn [force_event fst]. rewrite fold_left_app, A3, Hl. reflexivity.
    - destruct (i_commit_ok ks _ Hi) as (A & B & D). apply IH; [exact A|rewrite B; exact Hl|rewrite D; exact Hl].
    - destruct (i_abort_ok ks _ Hi) as (A & B & D). apply IH; [exact A|rewrite B; exact Hs|rewrite D; exact Hs].
    - rewrite (i_evict_eq _ _ Hi). apply IH; assumption.
    - destruct (i_restart_ok _ Hi) as (A & B & D). apply IH; [exact A|rewrite B; exact Hs|rewrite D; exact Hs].
  Qed.
  Lemma run_views evs :
    to (lv (fst (i_run call evs))) = aft (calls_in_force evs) /\ to (sv (fst (i_run call evs))) = aft (calls_committed evs).
  Proof using sim to_new. apply (run_inv evs i_new [] ([], [])); [apply iinv_new|exact to_new|exact to_new]. Qed.

  Lemma run_outcomes_from evs past st out :
    iinv st -> to (lv st) = aft (calls_in_force past) -> to (sv st) = aft (calls_committed past) ->
    snd (fold_left (i_event call) evs (st, out)) = out ++ outcomes_from step new past evs.
  Proof using sim.
    revert st out past. induction evs as [|e evs IH]; intros st out past Hi Hl Hs; [cbn; rewrite app_nil_r; reflexivity|].
    cbn [fold_left outcomes_from].
    pose proof (run_inv [e] st out (fold_left force_event past ([], [])) Hi Hl Hs) as R1. cbv zeta in R1.
    rewrite <- fold_left_app in R1. cbn [fold_left] in R1. destruct R1 as (A & B & D).
    destruct (i_event call (st, out) e) as [st1 out1] eqn:E. cbn [fst] in *.
    rewrite (IH st1 out1 (past ++ [e]) A B D). rewrite app_assoc. f_equal.
    destruct e as [o|ks|ks|ks|]; cbn [i_event fst snd] in E; try (injection E as _ <-; rewrite app_nil_r; reflexivity).
    destruct (sim o st Hi) as (_ & _ & _ & A4). destruct (call o st) as [st2 r]. injection E as _ <-. cbn [snd] in A4. rewrite A4, Hl. reflexivity.
  Qed.
  Lemma run_outcomes evs : snd (i_run call evs) = outcomes_from step new [] evs.
  Proof using sim to_new. apply (run_outcomes_from evs [] i_new []); [apply iinv_new|exact to_new|exact to_new]. Qed.
End PSetsL.
Arguments iview K {OK} C R.

(** ** Field index *)
Section PFieldL.
  Context {T : Type} `{OT : Ord T}.
  Notation pyval := (pyval T).
  Notation pst := (ist pyval (sset Z) pyval).
  Notation lv := (lv (empty : sset Z)).
  Notation sv := (sv (empty : sset Z)).
  Implicit Type st : pst.
  Definition to_f (v : iview pyval (sset Z) pyval) : fstate T := M_field.mkF (w_fwd v) (w_rev v) (w_num v).
  Definition fsim st (p : pst * res unit) (q : fstate T * res unit) : Prop :=
    iinv (fst p) /\ sv (fst p) = sv st /\ q = (to_f (lv (fst p)), snd p).
  Lemma fsim_does g st st' r : does empty g st st' -> forall q, q = (to_f (g (lv st)), r) -> fsim st (st', r) q.
  Proof. intros (A & B & D) q ->. split; [exact A|]. split; [exact D|]. cbn [fst snd]. rewrite B. reflexivity. Qed.

  Lemma bt_get_view value st : bt_get (fwd (to_f (lv st))) value =
    match pf_get value st with Ok x => Ok (option_map snd x) | Raise e => Raise e end.
  Proof.
    unfold bt_get, pf_get. cbn [to_f fwd]. rewrite lookup_view. unfold L_pindex.lv. cbn [w_fwd]. rewrite keys_mmap.
    destruct (forallb _ _); reflexivity.
  Qed.
  Lemma pf_get_lookup value st x : pf_get value st = Ok x -> i_lookup empty value st = x.
  Proof. unfold pf_get. destruct (forallb _ _); congruence. Qed.
  Lemma rev_view d st : get (rev_ix (to_f (lv st))) d = i_rev_get d st.
  Proof. reflexivity. Qed.
  Lemma pf_unindex_sim d st : iinv st -> fsim st (pf_unindex d st) (f_unindex d (to_f (lv st))).
  Proof.
    intros Hi. unfold pf_unindex, f_unindex. rewrite rev_view. destruct (i_rev_get d st) as [value|]; [|apply (fsim_does _ _ _ _ (does_id _ _ Hi)); reflexivity].
    pose proof (does_del_rev empty d st Hi) as H1. assert (Hi1 : iinv (i_del_rev d st)) by apply H1.
    assert (Ev : fwd (to_f (lv st)) = fwd (to_f (lv (i_del_rev d st)))) by reflexivity. rewrite Ev, bt_get_view. cbv zeta.
    destruct (pf_get value (i_del_rev d st)) as [[[r s]|]|e] eqn:E; cbn [option_map snd].
    - apply pf_get_lookup in E. destruct (mem d s).
      + pose proof (does_write empty value r (srem d s) s _ Hi1 E) as H2. assert (Hi2 : iinv (i_write r (srem d s) (i_del_rev d st))) by apply H2.
        destruct (is_empty (srem d s)).
        * pose proof (does_drop empty value _ Hi2) as H3. eapply fsim_does.
          -- eapply does_trans; [|apply does_change, H3]. eapply does_trans; [|exact H3]. eapply does_trans; [exact H1|exact H2].
          -- unfold to_f, g_del, g_put, g_del_rev, g_change. cbn. rewrite del_put. reflexivity.
        * eapply fsim_does.
          -- eapply does_trans; [|apply does_change, Hi2]. eapply does_trans; [exact H1|exact H2].
          -- reflexivity.
      + eapply fsim_does; [eapply does_trans; [exact H1|apply does_change, Hi1]|]. reflexivity.
    - eapply fsim_does; [eapply does_trans; [exact H1|apply does_change, Hi1]|]. reflexivity.
    - eapply fsim_does; [exact H1|]. reflexivity.
  Qed.
  Lemma pf_insert_sim d value st : iinv st -> fsim st (pf_insert d value st) (f_insert d value (to_f (lv st))).
  Proof.
    intros Hi. unfold pf_insert, f_insert. rewrite bt_get_view. destruct (pf_get value st) as [[[r s]|]|e] eqn:E; cbn [option_map snd].
    - apply pf_get_lookup in E. pose proof (does_write empty value r (sadd d s) s _ Hi E) as H2. eapply fsim_does.
      + eapply does_trans; [|apply does_put_rev; exact (proj1 (does_change empty 1 _ (proj1 H2)))].
        eapply does_trans; [exact H2|apply does_change, H2].
      + reflexivity.
    - pose proof (does_add empty value empty st Hi) as H1.
      pose proof (does_write empty value _ (sadd d empty) _ _ (proj1 H1) (lookup_added empty value empty st)) as H2. eapply fsim_does.
      + eapply does_trans; [|apply does_put_rev; exact (proj1 (does_change empty 1 _ (proj1 H2)))].
        eapply does_trans; [|apply does_change, H2].
        eapply does_trans; [exact H1|exact H2].
      + unfold to_f, g_put, g_put_rev, g_change. cbn. rewrite put_put. reflexivity.
    - apply (fsim_does _ _ _ _ (does_id _ _ Hi)). reflexivity.
  Qed.
  Lemma pf_index_sim d value st : iinv st -> fsim st (pf_index d value st) (f_index d value (to_f (lv st))).
  Proof.
    intros Hi. unfold pf_index, f_index. 
    assert (Em : mem d (rev_ix (to_f (lv st))) = match i_rev_get d st with Some _ => true | None => false end) by reflexivity. rewrite Em.
    destruct (i_rev_get d st) as [value0|] eqn:Er; [|apply pf_insert_sim; exact Hi].
    rewrite bt_get_view. destruct (pf_get value st) as [found|e]; [|apply (fsim_does _ _ _ _ (does_id _ _ Hi)); reflexivity].
    assert (Eb : match option_map snd found with Some s0 => mem d s0 | None => false end = match found with Some (_, s) => mem d s | None => false end)
      by (destruct found as [[r s]|]; reflexivity).
    rewrite Eb. destruct (match found with Some (_, s) => mem d s | None => false end).
    - apply (fsim_does _ _ _ _ (does_id _ _ Hi)). reflexivity.
    - destruct (pf_unindex_sim d st Hi) as (A & B & D). rewrite D. destruct (pf_unindex d st) as [st1 [u|e]]; cbn [fst snd] in *.
      + destruct (pf_insert_sim d value st1 A) as (A2 & B2 & D2). split; [exact A2|]. split; [congruence|exact D2].
      + split; [exact A|]. split; [exact B|reflexivity].
  Qed.
  Lemma pf_call_sim o st : iinv st -> iinv (fst (pf_call o st)) /\ sv (fst (pf_call o st)) = sv st /\
    to_f (lv (fst (pf_call o st))) = fst (f_step (to_f (lv st)) o) /\ snd (pf_call o st) = snd (f_step (to_f (lv st)) o).
  Proof.
    intros Hi. assert (H : fsim st (pf_call o st) (f_step (to_f (lv st)) o)).
    { destruct o as [d v|d|]; cbn [pf_call f_step]; [apply pf_index_sim|apply pf_unindex_sim|]; try exact Hi.
      eapply fsim_does; [apply does_clear, Hi|]. reflexivity. }
    destruct H as (A & B & D). rewrite D. auto.
  Qed.
  Lemma pf_new : to_f (lv i_new) = f_clear.
  Proof. unfold to_f, f_clear. cbn. f_equal. apply elts_inj. reflexivity. Qed.
  Lemma pf_run_ok evs : pf_live (fst (pf_run evs)) = f_run (calls_in_force evs) /\ pf_saved (fst (pf_run evs)) = f_run (calls_committed evs).
  Proof. exact (run_views empty pf_call (f_step (T := T)) f_clear to_f pf_call_sim pf_new evs). Qed.
  Lemma pf_outcomes_ok evs : snd (pf_run evs) = outcomes_from (f_step (T := T)) f_clear [] evs.
  Proof. exact (run_outcomes empty pf_call (f_step (T := T)) f_clear to_f pf_call_sim pf_new evs). Qed.
End PFieldL.

(** ** Keyword index *)
Section PKeywordL.
  Context {W : Type} `{OW : Ord W}.
  Variable normalize : list W -> list W.
  Notation pst := (ist W (bool * sset Z) (sset W)).
  Notation no_set := (false, empty : sset Z).
  Notation lv := (lv no_set).
  Notation sv := (sv no_set).
  Notation does := (does no_set).
  Notation iview := (iview W (bool * sset Z) (sset W)).
  Implicit Type st : pst.
  Definition to_k (v : iview) : kstate W := mkK (w_fwd v) (w_rev v) (w_num v) (w_thr v).
  Definition g_fwd (f : Z -> smap W (bool * sset Z) -> smap W (bool * sset Z)) (v : iview) : iview :=
    mkV (f (w_thr v) (w_fwd v)) (w_rev v) (w_num v) (w_thr v).
  Lemma does_eq g h st st' : does g st st' -> g (lv st) = h (lv st) -> does h st st'.
  Proof. intros (A & B & D) E. split; [exact A|]. split; [congruence|exact D]. Qed.

  Lemma insert_word_does d w st : iinv st -> does (g_fwd (fun thr m => insert_word thr d m w)) st (pk_insert_word d st w).
  Proof.
    intros Hi. unfold pk_insert_word.
    assert (H : exists r b s st1, match i_lookup no_set w st with
                | None => (i_fresh st, no_set, i_add_set w no_set st) | Some (r, x) => (r, x, st) end = (r, (b, s), st1) /\
                i_lookup no_set w st1 = Some (r, (b, s)) /\ i_thr st1 = i_thr st /\
                match get (w_fwd (lv st)) w with None => no_set | Some p => p end = (b, s) /\
                exists g, does g st st1 /\ forall x v, g_put w x (g v) = g_put w x v).
    { rewrite lookup_view. destruct (i_lookup no_set w st) as [[r [b s]]|] eqn:E; cbn [option_map snd].
      - exists r, b, s, st. repeat (split; [solve [auto]|]). exists (fun v => v). split; [apply does_id, Hi|reflexivity].
      - exists (i_fresh st), false, empty, (i_add_set w no_set st). split; [reflexivity|]. split; [apply lookup_added|].
        split; [reflexivity|]. split; [reflexivity|]. exists (g_put w no_set). split; [apply does_add, Hi|].
        intros x v. unfold g_put. cbn. rewrite put_put. reflexivity. }
    destruct H as (r & b & s & st1 & -> & El & Et & Eg & g & Hg & Hput). cbv zeta.
    assert (H2 : does (g_put w (b, sadd d s)) st (i_write r (b, sadd d s) st1)).
    { eapply does_eq; [eapply does_trans; [exact Hg|eapply does_write; [apply Hg|exact El]]|]. apply Hput. }
    assert (Et2 : n_live (i_thr (i_write r (b, sadd d s) st1)) = w_thr (lv st)) by (cbn; rewrite Et; reflexivity). rewrite Et2.
    assert (Ei : g_fwd (fun thr m => insert_word thr d m w) (lv st) =
                 g_put w (if negb b && (Zsize (sadd d s) >=? w_thr (lv st)) then (true, sadd d s) else (b, sadd d s)) (lv st)).
    { unfold g_fwd, insert_word. rewrite Eg. cbv zeta. destruct (negb b && (Zsize (sadd d s) >=? w_thr (lv st))); reflexivity. }
    destruct (negb b && (Zsize (sadd d s) >=? w_thr (lv st))) eqn:Eb.
    - eapply does_eq; [eapply does_trans; [exact H2|apply does_add; apply H2]|]. rewrite Ei.
      unfold g_put. cbn [w_fwd w_rev w_num w_thr]. rewrite put_put. reflexivity.
    - eapply does_eq; [exact H2|]. rewrite Ei. reflexivity.
  Qed.
  Lemma insert_list_does d l st : iinv st -> does (g_fwd (fun thr m => fold_left (insert_word thr d) l m)) st (fold_left (pk_insert_word d) l st).
  Proof.
    revert st. induction l as [|w l IH]; intros st Hi; cbn [fold_left].
    - eapply does_eq; [apply does_id, Hi|]. destruct (lv st); reflexivity.
    - pose proof (insert_word_does d w st Hi) as H1. eapply does_eq; [eapply does_trans; [exact H1|apply IH, H1]|]. reflexivity.
  Qed.
  Lemma remove_words_does d ws st : iinv st ->
    does (g_fwd (fun _ m => fst (remove_words d ws m))) st (fst (pk_remove_words d ws st)) /\
    snd (pk_remove_words d ws st) = snd (remove_words d ws (w_fwd (lv st))).
  Proof.
    revert st. induction ws as [|w ws IH]; intros st Hi; cbn [pk_remove_words remove_words].
    - split; [|reflexivity]. eapply does_eq; [apply does_id, Hi|]. destruct (lv st); reflexivity.
    - unfold g_fwd. rewrite lookup_view.
      assert (Hx : forall g st', does g st st' -> g (lv st) = mkV (fst match option_map snd (i_lookup no_set w st) with
          | Some (is_tree, s) => if mem d s then remove_words d ws (if is_empty (srem d s) then del w (w_fwd (lv st)) else put w (is_tree, srem d s) (w_fwd (lv st))) else (w_fwd (lv st), Raise KeyError)
          | None => (w_fwd (lv st), Raise KeyError) end) (w_rev (lv st)) (w_num (lv st)) (w_thr (lv st)) ->
          does (fun v => mkV (fst match get (w_fwd v) w with
          | Some (is_tree, s) => if mem d s then remove_words d ws (if is_empty (srem d s) then del w (w_fwd v) else put w (is_tree, srem d s) (w_fwd v)) else (w_fwd v, Raise KeyError)
          | None => (w_fwd v, Raise KeyError) end) (w_rev v) (w_num v) (w_thr v)) st st').
      { intros g st' Hd E. eapply does_eq; [exact Hd|]. rewrite lookup_view. exact E. }
      destruct (i_lookup no_set w st) as [[r [b s]]|] eqn:El; cbn [option_map snd] in *.
      + destruct (mem d s).
        * set (st1 := if is_empty (srem d s) then i_drop w (i_write r (b, srem d s) st) else i_write r (b, srem d s) st).
          assert (H1 : does (fun v => mkV (if is_empty (srem d s) then del w (w_fwd v) else put w (b, srem d s) (w_fwd v)) (w_rev v) (w_num v) (w_thr v)) st st1).
          { pose proof (does_write no_set w r (b, srem d s) (b, s) st Hi El) as H2. unfold st1. destruct (is_empty (srem d s)); [|exact H2].
            eapply does_eq; [eapply does_trans; [exact H2|apply does_drop, H2]|]. unfold g_del, g_put. cbn [w_fwd w_rev w_num w_thr]. rewrite del_put. reflexivity. }
          destruct (IH st1 (proj1 H1)) as [A B]. pose proof (proj1 (proj2 H1)) as H2. split.
          -- eapply Hx; [eapply does_trans; [exact H1|exact A]|]. reflexivity.
          -- cbv zeta. fold st1. rewrite B, H2. reflexivity.
        * split; [|reflexivity]. eapply Hx; [apply does_id, Hi|]. destruct (lv st); reflexivity.
      + split; [|reflexivity]. eapply Hx; [apply does_id, Hi|]. destruct (lv st); reflexivity.
  Qed.

  Definition ksim st (p : pst * res unit) (q : kstate W * res unit) : Prop :=
    iinv (fst p) /\ sv (fst p) = sv st /\ q = (to_k (lv (fst p)), snd p).
  Lemma ksim_does g st st' r : does g st st' -> forall q, q = (to_k (g (lv st)), r) -> ksim st (st', r) q.
  Proof. intros (A & B & D) q ->. split; [exact A|]. split; [exact D|]. cbn [fst snd]. rewrite B. reflexivity. Qed.
  Lemma krev_view d st : get (krev (to_k (lv st))) d = i_rev_get d st.
  Proof. reflexivity. Qed.
  Lemma unindex_ksim d st : iinv st -> ksim st (pk_unindex d st, Ok tt) (k_unindex d (to_k (lv st)), Ok tt).
  Proof.
    intros Hi. unfold pk_unindex, k_unindex. rewrite krev_view. destruct (i_rev_get d st) as [words|]; [|eapply ksim_does; [apply does_id, Hi|]; reflexivity].
    destruct (remove_words_does d (selems words) st Hi) as [A B]. cbn [to_k kfwd].
    destruct (pk_remove_words d (selems words) st) as [st1 r1]. cbn [fst snd] in A, B.
    assert (Ef : g_fwd (fun _ m => fst (remove_words d (selems words) m)) (lv st) =
      mkV (fst (remove_words d (selems words) (w_fwd (lv st)))) (w_rev (lv st)) (w_num (lv st)) (w_thr (lv st))) by reflexivity.
    destruct (remove_words d (selems words) (w_fwd (lv st))) as [m r2]. cbn [fst snd] in Ef, B. subst r2. destruct r1 as [u|e].
    - pose proof (does_del_rev no_set d st1 (proj1 A)) as H2. eapply ksim_does.
      + eapply does_trans; [|apply does_change, H2]. eapply does_trans; [exact A|exact H2].
      + cbv beta. rewrite Ef. reflexivity.
    - eapply ksim_does; [exact A|]. rewrite Ef. reflexivity.
  Qed.
  Definition g_reverse d words (v : iview) : iview := mkV (w_fwd v) (insert_reverse d words (w_rev v)) (w_num v) (w_thr v).
  Lemma insert_reverse_does d words st : iinv st -> does (g_reverse d words) st (pk_insert_reverse d words st).
  Proof.
    intros Hi. unfold pk_insert_reverse, g_reverse, insert_reverse. destruct (is_empty words).
    - eapply does_eq; [apply does_id, Hi|]. destruct (lv st); reflexivity.
    - eapply does_eq; [apply does_put_rev, Hi|]. reflexivity.
  Qed.
  Lemma index_ksim d seq st : iinv st -> ksim st (pk_index normalize d seq st) (k_index normalize d seq (to_k (lv st))).
  Proof.
    intros Hi. assert (Hid : forall r, ksim st (st, r) (to_k (lv st), r)) by (intros r; eapply ksim_does; [apply does_id, Hi|reflexivity]).
    unfold pk_index, k_index. destruct seq as [|[|x l]]; [apply Hid| |]; cbv zeta; rewrite krev_view.
    - destruct (i_rev_get d st) as [kw|]; [|apply Hid]. destruct (is_empty kw); [apply Hid|apply unindex_ksim, Hi].
    - set (nw := set_of_list (normalize (x :: l))). destruct (i_rev_get d st) as [old|].
      + destruct (remove_words_does d (selems (mdiff old nw)) st Hi) as [A B]. cbn [to_k kfwd].
        destruct (pk_remove_words d (selems (mdiff old nw)) st) as [st1 r1]. cbn [fst snd] in A, B.
        assert (Ef : g_fwd (fun _ m => fst (remove_words d (selems (mdiff old nw)) m)) (lv st) =
          mkV (fst (remove_words d (selems (mdiff old nw)) (w_fwd (lv st)))) (w_rev (lv st)) (w_num (lv st)) (w_thr (lv st))) by reflexivity.
        destruct (remove_words d (selems (mdiff old nw)) (w_fwd (lv st))) as [m r2]. cbn [fst snd] in Ef, B. subst r2. destruct r1 as [u|e].
        * pose proof (insert_list_does d (selems (mdiff nw old)) st1 (proj1 A)) as H2. eapply ksim_does.
          -- eapply does_trans; [|apply insert_reverse_does, H2]. eapply does_trans; [exact A|exact H2].
          -- cbv beta. rewrite Ef. reflexivity.
        * eapply ksim_does; [exact A|]. rewrite Ef. reflexivity.
      + pose proof (insert_list_does d (selems nw) st Hi) as H2. pose proof (insert_reverse_does d nw _ (proj1 H2)) as H3. eapply ksim_does.
        * eapply does_trans; [|apply does_change, H3]. eapply does_trans; [exact H2|exact H3].
        * reflexivity.
  Qed.
  (** [optimize] *)
  Definition conv (thr : Z) (p : bool * sset Z) : bool * sset Z :=
    let '(is_tree, s) := p in
    if Zsize s >=? thr then (if negb is_tree then (true, s) else (is_tree, s)) else (if is_tree then (false, s) else (is_tree, s)).
  Definition conv_at (thr : Z) (m : smap W (bool * sset Z)) (w : W) : smap W (bool * sset Z) :=
    match get m w with Some p => put w (conv thr p) m | None => m end.
  Lemma put_get_id (m : smap W (bool * sset Z)) w p : get m w = Some p -> put w p m = m.
  Proof. intros E. apply smap_ext. intros x. rewrite get_put. destruct (eqb x w) eqn:Ex; [|reflexivity]. apply eqb_eq in Ex as ->. symmetry. exact E. Qed.
  Lemma optimize_word_does w st : iinv st -> does (g_fwd (fun thr m => conv_at thr m w)) st (pk_optimize_word st w).
  Proof.
    intros Hi. unfold pk_optimize_word. pose proof (lookup_view no_set w st) as Hl.
    assert (Hput : forall x, (option_map (conv (w_thr (lv st))) (get (w_fwd (lv st)) w)) = Some x ->
       g_put w x (lv st) = g_fwd (fun thr m => conv_at thr m w) (lv st)).
    { intros x E. unfold g_put, g_fwd, conv_at. destruct (get (w_fwd (lv st)) w) as [p|]; [|discriminate]. injection E as <-. reflexivity. }
    assert (Hsame : (option_map (conv (w_thr (lv st))) (get (w_fwd (lv st)) w)) = get (w_fwd (lv st)) w ->
       lv st = g_fwd (fun thr m => conv_at thr m w) (lv st)).
    { intros E. unfold g_fwd, conv_at. destruct (get (w_fwd (lv st)) w) as [p|] eqn:Eg.
      - assert (E' : conv (w_thr (lv st)) p = p) by (cbn [option_map] in E; congruence). rewrite E', put_get_id by exact Eg. destruct (lv st); reflexivity.
      - destruct (lv st); reflexivity. }
    rewrite Hl in Hput, Hsame. change (n_live (i_thr st)) with (w_thr (lv st)).
    destruct (i_lookup no_set w st) as [[r [b s]]|]; cbn [option_map snd conv] in Hput, Hsame.
    - destruct (Zsize s >=? w_thr (lv st)); destruct b; cbn [negb] in *;
        try (eapply does_eq; [apply does_id, Hi|]; apply Hsame; reflexivity);
        (eapply does_eq; [apply does_add, Hi|]; apply Hput; reflexivity).
    - eapply does_eq; [apply does_id, Hi|]. apply Hsame. reflexivity.
  Qed.
  Lemma optimize_list_does l st : iinv st -> does (g_fwd (fun thr m => fold_left (conv_at thr) l m)) st (fold_left pk_optimize_word l st).
  Proof.
    revert st. induction l as [|w l IH]; intros st Hi; cbn [fold_left].
    - eapply does_eq; [apply does_id, Hi|]. destruct (lv st); reflexivity.
    - pose proof (optimize_word_does w st Hi) as H1. eapply does_eq; [eapply does_trans; [exact H1|apply IH, H1]|]. reflexivity.
  Qed.
  Lemma conv_list thr l (m : smap W (bool * sset Z)) x : NoDup l ->
    get (fold_left (conv_at thr) l m) x = if existsb (eqb x) l then option_map (conv thr) (get m x) else get m x.
  Proof.
    revert m. induction l as [|w l IH]; intros m Hn; cbn [fold_left existsb]; [reflexivity|]. inversion Hn as [|? ? Hw Hn']. subst.
    rewrite IH by exact Hn'.
    assert (E : get (conv_at thr m w) x = if eqb x w then option_map (conv thr) (get m x) else get m x).
    { unfold conv_at. destruct (get m w) as [p|] eqn:Eg.
      - rewrite get_put. destruct (eqb x w) eqn:Ex; [|reflexivity]. apply eqb_eq in Ex as ->. rewrite Eg. reflexivity.
      - destruct (eqb x w) eqn:Ex; [|reflexivity]. apply eqb_eq in Ex as ->. rewrite Eg. reflexivity. }
    rewrite E. destruct (eqb x w) eqn:Ex; cbn [orb]; [|reflexivity]. apply eqb_eq in Ex as ->.
    destruct (existsb (eqb w) l) eqn:El; [|reflexivity]. apply existsb_exists in El as (y & Hy & Ey). apply eqb_eq in Ey as ->. contradiction.
  Qed.
  Lemma conv_all thr (m : smap W (bool * sset Z)) : fold_left (conv_at thr) (keys m) m = mmap (fun _ => conv thr) m.
  Proof.
    apply smap_ext. intros x. rewrite conv_list by apply keys_NoDup. rewrite get_mmap. destruct (existsb (eqb x) (keys m)) eqn:E.
    - destruct (get m x); reflexivity.
    - destruct (get m x) as [p|] eqn:Eg; [|reflexivity]. exfalso.
      assert (H : existsb (eqb x) (keys m) = true) by (apply existsb_exists; exists x; split; [apply keys_In; eauto|apply eqb_refl]). congruence.
  Qed.
  Lemma optimize_ksim st : iinv st -> ksim st (pk_optimize st, Ok tt) (k_optimize (to_k (lv st)), Ok tt).
  Proof.
    intros Hi. eapply ksim_does; [apply optimize_list_does, Hi|]. f_equal. unfold k_optimize, to_k, g_fwd. cbn [w_fwd w_rev w_num w_thr kfwd krev knum threshold].
    f_equal. rewrite <- (keys_mmap (fun _ : W => content no_set (live (i_sets st)))). symmetry. apply conv_all.
  Qed.
  Lemma pk_call_sim o st : iinv st -> iinv (fst (pk_call normalize o st)) /\ sv (fst (pk_call normalize o st)) = sv st /\
    to_k (lv (fst (pk_call normalize o st))) = fst (k_step normalize (to_k (lv st)) o) /\ snd (pk_call normalize o st) = snd (k_step normalize (to_k (lv st)) o).
  Proof.
    intros Hi. assert (H : ksim st (pk_call normalize o st) (k_step normalize (to_k (lv st)) o)).
    { destruct o as [d s|d| | |n]; cbn [pk_call k_step]; [apply index_ksim|apply unindex_ksim| |apply optimize_ksim|]; try exact Hi.
      - eapply ksim_does; [apply does_clear, Hi|]. reflexivity.
      - eapply ksim_does; [apply does_thr, Hi|]. reflexivity. }
    destruct H as (A & B & D). rewrite D. auto.
  Qed.
  Lemma pk_new : to_k (lv i_new) = k_new.
  Proof. unfold to_k, k_new. cbn. f_equal. apply elts_inj. reflexivity. Qed.
  Lemma pk_run_ok evs : pk_live (fst (pk_run normalize evs)) = k_run normalize (calls_in_force evs) /\
    pk_saved (fst (pk_run normalize evs)) = k_run normalize (calls_committed evs).
  Proof. exact (run_views no_set (pk_call normalize) (k_step normalize) k_new to_k pk_call_sim pk_new evs). Qed.
  Lemma pk_outcomes_ok evs : snd (pk_run normalize evs) = outcomes_from (k_step normalize) k_new [] evs.
  Proof. exact (run_outcomes no_set (pk_call normalize) (k_step normalize) k_new to_k pk_call_sim pk_new evs). Qed.
End PKeywordL.
