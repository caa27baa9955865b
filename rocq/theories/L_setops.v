(** * Lemmas about setops *)
From Verif Require Import S_setops M_setops S_nbest L_nbest.

Section Queue.
  Context {F : Type} `{AF : Arith F}.
  Implicit Types (L : list (smap Z F * F)) (m : smap Z F) (k : Z).

  Lemma union_fill_repr L q N l : nb_repr q N l -> (length l + length L <= N)%nat ->
    exists q' l', union_fill q L = Ok q' /\ nb_repr q' N l' /\ Permutation (map fst l') (map fst l ++ L).
  Proof.
    revert q l; induction L as [|[x w] L IH]; intros q l Hq Hlen; cbn [union_fill].
    - exists q, l. rewrite app_nil_r. auto.
    - unfold nb_add. destruct (nb_addmany_repr q N l [((x, w), Zsize x)] Hq) as [q1 [-> H1]]. cbn [bind].
      cbn [fold_left] in H1. cbn [length] in Hlen.
      assert (Hp : Permutation (best_add N l ((x, w), Zsize x)) (((x, w), Zsize x) :: l)).
      { unfold best_add. rewrite firstn_all2 by (rewrite best_insert_length; lia).
        rewrite best_insert_isort by apply Hq. rewrite isort_perm. rewrite Permutation_app_comm. reflexivity. }
      destruct (IH q1 _ H1) as [q' [l' [Hf [Hr Hpp]]]].
      { rewrite (Permutation_length Hp). cbn [length]. lia. }
      exists q', l'. split; [exact Hf|]. split; [exact Hr|].
      rewrite Hpp. rewrite (Permutation_map fst Hp). cbn [map fst app].
      apply Permutation_middle.
  Qed.

  Lemma best_add_perm N (l : list (smap Z F * F * Z)) p :
    (length l < N)%nat -> StronglySorted (fun p q => score_desc p q = true) l ->
    Permutation (best_add N l p) (p :: l).
  Proof.
    intros Hl Hs. unfold best_add. rewrite firstn_all2 by (rewrite best_insert_length; lia).
    rewrite best_insert_isort by exact Hs. rewrite isort_perm, Permutation_app_comm. reflexivity.
  Qed.


  (** A measure of queue entries in a commutative monoid, respected by merging. *)
  Context {M : Type} (op : M -> M -> M) (unit : M) (val : smap Z F * F -> M).
  Hypothesis op_comm : forall a b, op a b = op b a.
  Hypothesis op_assoc : forall a b c, op a (op b c) = op (op a b) c.
  Hypothesis op_unit : forall a, op unit a = a.
  Hypothesis val_union : forall x y wx wy,
    val (weightedUnion x y wx wy, f1) = op (val (x, wx)) (val (y, wy)).

  Definition msum L : M := fold_right (fun p acc => op (val p) acc) unit L.
  Lemma msum_perm L L' : Permutation L L' -> msum L = msum L'.
  Proof.
    induction 1 as [|p L L' HP IH|p q L|L1 L2 L3 H1 IH1 H2 IH2]; cbn [msum fold_right].
    - reflexivity.
    - f_equal. exact IH.
    - rewrite !op_assoc, (op_comm (val q)). reflexivity.
    - congruence.
  Qed.

  Lemma union_loop_repr fuel q N (l : list (smap Z F * F * Z)) : nb_repr q N l ->
    (length l <= fuel)%nat -> l <> [] ->
    (length l = 1%nat -> Forall (fun p => snd (fst p) = f1) l) ->
    exists q' p, union_loop fuel q = Ok q' /\ nb_repr q' N [p] /\ snd (fst p) = f1 /\
      val (fst p) = msum (map fst l).
  Proof.
    revert q l; induction fuel as [|n IH]; intros q l Hq Hf Hne H1.
    { destruct l; [contradiction|cbn in Hf; lia]. }
    assert (Hlen : nb_len q = Zlen l).
    { destruct Hq as (_ & _ & _ & Hsc & _). unfold nb_len, Zlen. rewrite Hsc, rev_length, map_length. reflexivity. }
    cbn [union_loop]. rewrite Hlen.
    destruct (snoc_cases l) as [-> |[l1 [p1 ->]]]; [contradiction|].
    destruct (snoc_cases l1) as [-> |[l2 [p2 ->]]].
    - cbn. exists q, p1. split; [reflexivity|]. split; [exact Hq|].
      specialize (H1 eq_refl). inversion H1 as [|? ? Hp1 _]; subst. split; [exact Hp1|].
      rewrite op_comm, op_unit. reflexivity.
    - unfold Zlen. rewrite !app_length. cbn [length].
      destruct (Z.gtb_spec (Z.of_nat (length l2 + 1 + 1)) 1) as [_|Hbad]; [|lia].
      pose proof (nb_pop_repr q N _ Hq) as Hp1.
      rewrite rev_app_distr, removelast_app in Hp1 by discriminate. cbn [rev app removelast] in Hp1.
      rewrite app_nil_r in Hp1. destruct Hp1 as [q1 [-> Hq1]]. cbn [bind].
      pose proof (nb_pop_repr q1 N _ Hq1) as Hp2.
      rewrite rev_app_distr, removelast_app in Hp2 by discriminate. cbn [rev app removelast] in Hp2.
      rewrite app_nil_r in Hp2. destruct Hp2 as [q2 [-> Hq2]]. cbn [bind].
      set (z := weightedUnion _ _ _ _).
      unfold nb_add. destruct (nb_addmany_repr q2 N l2 [((z, f1), Zsize z)] Hq2) as [q3 [-> Hq3]]. cbn [bind].
      cbn [fold_left] in Hq3.
      destruct Hq as (_ & _ & Hl & _ & _ & _). rewrite !app_length in Hl. cbn [length] in Hl.
      assert (Hperm : Permutation (best_add N l2 ((z, f1), Zsize z)) (((z, f1), Zsize z) :: l2)).
      { apply best_add_perm; [lia|]. apply Hq2. }
      destruct (IH q3 _ Hq3) as (q' & p & H2 & H3 & H4 & H5).
      + rewrite (Permutation_length Hperm). cbn [length]. rewrite !app_length in Hf. cbn [length] in Hf. lia.
      + intros E. rewrite E in Hperm. apply Permutation_nil in Hperm. discriminate.
      + intros E. rewrite (Permutation_length Hperm) in E. cbn [length] in E.
        destruct l2; [|cbn in E; lia]. apply Permutation_sym, Permutation_length_1_inv in Hperm.
        rewrite Hperm. constructor; [reflexivity|constructor].
      + exists q', p. splits; try assumption. rewrite H5.
        rewrite (msum_perm _ _ (Permutation_map fst Hperm)).
        cbn [map fst msum fold_right]. fold (msum (map fst l2)).
        unfold z. rewrite val_union.
        rewrite !map_app. cbn [map].
        rewrite (msum_perm ((map fst l2 ++ [fst p2]) ++ [fst p1]) (fst p1 :: fst p2 :: map fst l2)).
        2:{ rewrite <- app_assoc. cbn [app]. rewrite Permutation_app_comm. cbn [app].
            apply perm_swap. }
        cbn [msum fold_right]. fold (msum (map fst l2)).
        destruct p1 as [[m1 w1] s1], p2 as [[m2 w2] s2]. cbn [fst snd].
        symmetry. apply op_assoc.
  Qed.

  Lemma mass_union_msum L : (2 <= length L)%nat ->
    exists r, mass_weightedUnion L = Ok r /\ val (r, f1) = msum L.
  Proof.
    intros H. unfold mass_weightedUnion. destruct (Nat.ltb_spec (length L) 2) as [H'|_]; [lia|].
    destruct (@nb_new_repr (smap Z F * F) Z _ (length L) ltac:(lia)) as [q0 [H0 Hr0]].
    unfold Zlen. rewrite H0. cbn [bind].
    destruct (union_fill_repr L q0 _ [] Hr0 ltac:(cbn; lia)) as [q [l [-> [Hr Hp]]]]. cbn [bind].
    cbn [map app] in Hp.
    assert (Hlen : length l = length L) by (rewrite <- (Permutation_length Hp), map_length; reflexivity).
    destruct (union_loop_repr (length L) q (length L) l Hr) as [q' [p [-> [Hr' [Hw Hk]]]]].
    - lia.
    - intros ->. cbn in Hlen. lia.
    - lia.
    - cbn [bind]. pose proof (nb_pop_repr q' _ _ Hr') as Hpop. cbn in Hpop. destruct Hpop as [q'' [-> _]].
      cbn [bind]. eexists; split; [reflexivity|]. rewrite <- (msum_perm _ _ Hp), <- Hk.
      destruct p as [[m w] s]. cbn in *. subst w. reflexivity.
  Qed.
End Queue.

(** The set of keys does not depend on the arithmetic. *)
Section Keys.
  Context {F : Type} `{AF : Arith F}.
  Implicit Types (L : list (smap Z F * F)) (m : smap Z F) (k : Z).

  Lemma mem_weightedUnion x y (wx wy : F) k : mem k (weightedUnion x y wx wy) = mem k x || mem k y.
  Proof.
    unfold mem, weightedUnion. rewrite get_merge; [|reflexivity]. destruct (get x k), (get y k); reflexivity.
  Qed.
  Lemma mem_weightedIntersection x y (wx wy : F) k :
    mem k (weightedIntersection x y wx wy) = mem k x && mem k y.
  Proof.
    unfold mem, weightedIntersection. rewrite get_merge; [|reflexivity].
    destruct (get x k), (get y k); reflexivity.
  Qed.

  Lemma trivial_keys L : (length L < 2)%nat ->
    exists r, trivial L = Ok r /\ forall k, mem k r = existsb (fun p => mem k (fst p)) L.
  Proof.
    intros H. destruct L as [|[m w] [|? ?]]; cbn in H; try lia; cbn [trivial].
    - exists empty. split; reflexivity.
    - destruct (feqb w f1); cbn [negb]; eexists; (split; [reflexivity|]); intros k; cbn [existsb fst].
      + rewrite orb_false_r. reflexivity.
      + rewrite mem_weightedUnion, orb_false_r. reflexivity.
  Qed.

  Lemma mass_union_keys L :
    exists r, mass_weightedUnion L = Ok r /\ forall k, mem k r = existsb (fun p => mem k (fst p)) L.
  Proof.
    destruct (Nat.lt_ge_cases (length L) 2) as [H|H].
    - unfold mass_weightedUnion. destruct (Nat.ltb_spec (length L) 2); [|lia]. apply trivial_keys, H.
    - assert (Hk : forall k, exists r, mass_weightedUnion L = Ok r /\ mem k r = existsb (fun p => mem k (fst p)) L).
      { intros k. destruct (mass_union_msum orb false (fun p => mem k (fst p))) with (L := L) as [r [Hr Hv]].
        - exact orb_comm.
        - exact orb_assoc.
        - reflexivity.
        - intros; cbn; apply mem_weightedUnion.
        - exact H.
        - exists r. split; [exact Hr|]. cbn in Hv. rewrite Hv. clear. induction L as [|p L IH]; [reflexivity|].
          unfold msum in *. cbn [fold_right existsb]. rewrite IH. reflexivity. }
      destruct (Hk 0) as [r [Hr _]]. exists r. split; [exact Hr|]. intros k.
      destruct (Hk k) as [r' [Hr' Hm]]. congruence.
  Qed.

  Lemma mass_inter_keys (L0 : list (option (smap Z F) * F)) :
    exists r, mass_weightedIntersection L0 = Ok r /\
      forall k, mem k r = negb (match not_none L0 with [] => true | _ => false end)
                          && forallb (fun p => mem k (fst p)) (not_none L0).
  Proof.
    unfold mass_weightedIntersection. change (drop_none L0) with (not_none L0).
    set (L := not_none L0). clearbody L.
    destruct (Nat.ltb_spec (length L) 2) as [H|H].
    - destruct (trivial_keys L H) as [r [Hr Hk]]. exists r. split; [exact Hr|]. intros k. rewrite Hk.
      destruct L as [|p [|? ?]]; cbn in H; try lia; [reflexivity|]. cbn.
      rewrite andb_true_r, orb_false_r. reflexivity.
    - pose proof (isort_perm by_len L) as Hp.
      destruct (isort by_len L) as [|[x wx] [|[y wy] rest]] eqn:E;
        try (apply Permutation_length in Hp; cbn in Hp; lia).
      eexists; split; [reflexivity|]. intros k.
      assert (Hfold : forall rest m, mem k (fold_left (fun result p => weightedIntersection result (fst p) f1 (snd p)) rest m)
        = mem k m && forallb (fun p : smap Z F * F => mem k (fst p)) rest).
      { clear. induction rest as [|p rest IH]; intros m; cbn; [rewrite andb_true_r; reflexivity|].
        rewrite IH, mem_weightedIntersection, andb_assoc. reflexivity. }
      rewrite Hfold, mem_weightedIntersection.
      assert (Hperm : forall A (f : A -> bool) l l', Permutation l l' -> forallb f l = forallb f l').
      { clear. intros A f l l' HP. induction HP; cbn; try congruence.
        rewrite !andb_assoc, (andb_comm (f y)). reflexivity. }
      rewrite <- (Hperm _ _ _ _ Hp). cbn. rewrite !andb_assoc.
      destruct L; [cbn in H; lia|]. reflexivity.
  Qed.
End Keys.

Section L.
  Context {F : Type} `{AF : Arith F} {EF : ExactArith F}.
  Implicit Types (L : list (smap Z F * F)) (m : smap Z F) (k : Z).

  Definition oadd (a b : option F) : option F :=
    match a, b with
    | Some u, Some v => Some (fadd u v)
    | Some u, None => Some u
    | None, b => b
    end.
  Lemma oadd_comm a b : oadd a b = oadd b a.
  Proof. destruct a, b; cbn; try reflexivity. rewrite fadd_comm; reflexivity. Qed.
  Lemma oadd_assoc a b c : oadd a (oadd b c) = oadd (oadd a b) c.
  Proof. destruct a, b, c; cbn; try reflexivity. rewrite fadd_assoc; reflexivity. Qed.

  Definition value k (p : smap Z F * F) : option F :=
    match get (fst p) k with Some v => Some (fmul v (snd p)) | None => None end.
  Definition total k L : option F := fold_right (fun p acc => oadd (value k p) acc) None L.

  Lemma total_perm k L L' : Permutation L L' -> total k L = total k L'.
  Proof.
    induction 1 as [|p L L' HP IH|p q L|L1 L2 L3 H1 IH1 H2 IH2]; cbn [total fold_right].
    - reflexivity.
    - f_equal. exact IH.
    - rewrite !oadd_assoc, (oadd_comm (value k q)). reflexivity.
    - congruence.
  Qed.

  Lemma fadd_0_r x : fadd x f0 = x.
  Proof. rewrite fadd_comm; apply fadd_0_l. Qed.

  Lemma total_contribs k L :
    total k L = match contribs L k with [] => None | _ => Some (fsum (contribs L k)) end.
  Proof.
    unfold contribs. induction L as [|p L IH]; cbn [total fold_right map concat]; [reflexivity|].
    fold (total k L). rewrite IH. unfold value. destruct (get (fst p) k) as [v|]; cbn [app].
    - destruct (concat _); cbn [oadd fsum fold_right]; [|reflexivity].
      rewrite fadd_0_r. reflexivity.
    - destruct (concat _); reflexivity.
  Qed.

  Lemma get_weightedUnion x y wx wy k :
    get (weightedUnion x y wx wy) k = oadd (value k (x, wx)) (value k (y, wy)).
  Proof.
    unfold weightedUnion, value. rewrite get_merge; [|reflexivity]. cbn [fst snd].
    destruct (get x k), (get y k); cbn [oadd]; unfold weigh2, weigh; rewrite ?f32_exact; reflexivity.
  Qed.

  Lemma value_1 m k : value k (m, f1) = get m k.
  Proof. unfold value. cbn. destruct (get m k); [rewrite fmul_1_r|]; reflexivity. Qed.

  Lemma trivial_ok L : (length L < 2)%nat ->
    exists r, trivial L = Ok r /\ forall k, get r k = total k L.
  Proof.
    intros H. destruct L as [|[m w] [|? ?]]; cbn in H; try lia; cbn [trivial].
    - exists empty. split; [reflexivity|]. intros k. reflexivity.
    - destruct (feqb w f1) eqn:E; cbn [negb].
      + apply feqb_eq in E; subst w. eexists; split; [reflexivity|]. intros k. cbn.
        rewrite value_1. destruct (get m k); reflexivity.
      + eexists; split; [reflexivity|]. intros k. rewrite get_weightedUnion.
        cbn [total fold_right]. change (value k (empty, f0)) with (@None F). cbn [oadd]. rewrite (oadd_comm _ None). reflexivity.
  Qed.

  Lemma mass_union_total L : exists r, mass_weightedUnion L = Ok r /\ forall k, get r k = total k L.
  Proof.
    destruct (Nat.lt_ge_cases (length L) 2) as [H|H].
    - unfold mass_weightedUnion. destruct (Nat.ltb_spec (length L) 2); [|lia]. apply trivial_ok, H.
    - assert (Hk : forall k, exists r, mass_weightedUnion L = Ok r /\ get r k = total k L).
      { intros k. destruct (mass_union_msum oadd None (value k)) with (L := L) as [r [Hr Hv]].
        - exact oadd_comm.
        - exact oadd_assoc.
        - reflexivity.
        - intros. rewrite value_1. apply get_weightedUnion.
        - exact H.
        - exists r. split; [exact Hr|]. rewrite value_1 in Hv. exact Hv. }
      destruct (Hk 0) as [r [Hr _]]. exists r. split; [exact Hr|]. intros k.
      destruct (Hk k) as [r' [Hr' Hm]]. congruence.
  Qed.

  Lemma contribs_in_some L k : contribs L k <> [] <-> in_some L k.
  Proof.
    unfold contribs, in_some. induction L as [|p L IH]; cbn [map concat].
    - split; [congruence|intros H; inversion H].
    - split.
      + destruct (get (fst p) k) as [v|] eqn:E; intros H; [left; exists v; exact E|].
        right. apply IH, H.
      + intros H. inversion H as [? ? [v Hv]|? ? Hx]; subst.
        * rewrite Hv. discriminate.
        * apply IH in Hx. destruct (get (fst p) k); [discriminate|exact Hx].
  Qed.

  Lemma mass_union_spec L : exists r, mass_weightedUnion L = Ok r /\
    forall k, (in_some L k -> get r k = Some (fsum (contribs L k))) /\
              (~ in_some L k -> get r k = None).
  Proof.
    destruct (mass_union_total L) as [r [Hr Hk]]. exists r. split; [exact Hr|]. intros k.
    rewrite Hk, total_contribs, <- contribs_in_some. destruct (contribs L k) as [|c cs].
    - split; [congruence|reflexivity].
    - split; [reflexivity|]. intros H. exfalso. apply H. discriminate.
  Qed.

  (** ** Intersections *)
  Definition itotal k L : option F :=
    match L with
    | [] => None
    | p :: L' => fold_left (fun acc q => match acc, value k q with
                                         | Some a, Some b => Some (fadd a b) | _, _ => None end)
                           L' (value k p)
    end.

  Lemma get_weightedIntersection x y wx wy k :
    get (weightedIntersection x y wx wy) k =
    match value k (x, wx), value k (y, wy) with Some a, Some b => Some (fadd a b) | _, _ => None end.
  Proof.
    unfold weightedIntersection, value. rewrite get_merge; [|reflexivity]. cbn [fst snd].
    destruct (get x k), (get y k); unfold weigh2, weigh; rewrite ?f32_exact; reflexivity.
  Qed.

  Lemma in_all_value L k : in_all L k -> forall p, In p L -> exists v, value k p = Some v.
  Proof.
    unfold in_all. rewrite Forall_forall. intros H p Hp. destruct (H p Hp) as [v Hv].
    unfold value. rewrite Hv. eexists; reflexivity.
  Qed.

  Lemma fold_inter_spec k L (acc : option F) :
    let r := fold_left (fun acc q => match acc, value k q with
                                     | Some a, Some b => Some (fadd a b) | _, _ => None end) L acc in
    (in_all L k -> forall a, acc = Some a -> r = Some (fadd a (fsum (contribs L k)))) /\
    (~ in_all L k \/ acc = None -> r = None).
  Proof.
    revert acc; induction L as [|p L IH]; intros acc; cbn [fold_left].
    - cbn. split.
      + intros _ a ->. rewrite fadd_0_r. reflexivity.
      + intros [H| ->]; [exfalso; apply H; constructor|reflexivity].
    - set (acc' := match acc, value k p with Some a, Some b => Some (fadd a b) | _, _ => None end).
      specialize (IH acc'). cbv zeta in *. destruct IH as [IH1 IH2]. split.
      + intros Hall a ->. inversion Hall as [|? ? [v Hv] Hrest]; subst.
        assert (Ha : acc' = Some (fadd a (fmul v (snd p)))) by (unfold acc', value; rewrite Hv; reflexivity).
        rewrite (IH1 Hrest _ Ha). f_equal. unfold contribs. cbn [map concat].
        rewrite Hv. cbn [app fsum fold_right]. rewrite <- fadd_assoc. reflexivity.
      + intros Hn. apply IH2. unfold acc', value. destruct Hn as [Hn| ->].
        * destruct (get (fst p) k) as [v|] eqn:E.
          -- left. intros Hr. apply Hn. constructor; [exists v; exact E|exact Hr].
          -- right. destruct acc; reflexivity.
        * right. reflexivity.
  Qed.

  Lemma get_fold_inter k rest m :
    get (fold_left (fun result p => weightedIntersection result (fst p) f1 (snd p)) rest m) k =
    fold_left (fun acc q => match acc, value k q with
                            | Some a, Some b => Some (fadd a b) | _, _ => None end) rest (get m k).
  Proof.
    revert m; induction rest as [|[x w] rest IH]; intros m; cbn [fold_left]; [reflexivity|].
    rewrite IH, get_weightedIntersection, value_1. reflexivity.
  Qed.

  Lemma contribs_perm k L L' : Permutation L L' -> fsum (contribs L k) = fsum (contribs L' k).
  Proof.
    intros HP. assert (H : forall L, fsum (contribs L k) = match total k L with Some s => s | None => f0 end).
    { intros L0. rewrite total_contribs. destruct (contribs L0 k); reflexivity. }
    rewrite !H, (total_perm k L L' HP). reflexivity.
  Qed.

  Lemma in_all_dec L k : in_all L k \/ ~ in_all L k.
  Proof.
    unfold in_all. induction L as [|p L IH]; [left; constructor|].
    destruct (get (fst p) k) as [v|] eqn:E.
    - destruct IH as [H|H]; [left; constructor; [exists v; exact E|exact H]|right; intros Hx; inversion Hx; contradiction].
    - right. intros Hx. inversion Hx as [|? ? [v Hv] _]; subst. congruence.
  Qed.

  Lemma mass_inter_spec (L0 : list (option (smap Z F) * F)) :
    let L := not_none L0 in
    exists r, mass_weightedIntersection L0 = Ok r /\
    forall k, (L <> [] /\ in_all L k -> get r k = Some (fsum (contribs L k))) /\
              (L = [] \/ ~ in_all L k -> get r k = None).
  Proof.
    cbv zeta. unfold mass_weightedIntersection. change (drop_none L0) with (not_none L0).
    set (L := not_none L0). clearbody L.
    destruct (Nat.ltb_spec (length L) 2) as [H|H].
    - destruct (trivial_ok L H) as [r [Hr Hk]]. exists r. split; [exact Hr|]. intros k. rewrite Hk.
      destruct L as [|p [|? ?]]; cbn in H; try lia.
      + split; [intros [Hx _]; congruence|reflexivity].
      + rewrite total_contribs. unfold contribs. cbn [map concat].
        destruct (get (fst p) k) as [v|] eqn:E; cbn [app].
        * split; [reflexivity|]. intros [Hx|Hx]; [discriminate|]. exfalso; apply Hx.
          constructor; [exists v; exact E|constructor].
        * split; [|reflexivity]. intros [_ Hx]. inversion Hx as [|? ? [v Hv] _]; subst. congruence.
    - pose proof (isort_perm by_len L) as Hp.
      destruct (isort by_len L) as [|[x wx] [|[y wy] rest]] eqn:E;
        try (apply Permutation_length in Hp; cbn in Hp; lia).
      eexists; split; [reflexivity|]. intros k.
      rewrite get_fold_inter, get_weightedIntersection.
      set (P := (x, wx) :: (y, wy) :: rest) in *.
      assert (Hall : in_all L k <-> in_all P k).
      { unfold in_all. split; intros Hx; eapply Permutation_Forall; try exact Hx; [symmetry; exact Hp|exact Hp]. }
      rewrite <- (contribs_perm k P L Hp). rewrite Hall. split.
      + intros [_ Hx]. unfold P, in_all in Hx. inversion Hx as [|? ? [u Hu] Hx1]; subst.
        inversion Hx1 as [|? ? [v Hv] Hx2]; subst. cbn [fst snd] in Hu, Hv.
        assert (Eu : value k (x, wx) = Some (fmul u wx)) by (unfold value; cbn [fst snd]; rewrite Hu; reflexivity).
        assert (Ev : value k (y, wy) = Some (fmul v wy)) by (unfold value; cbn [fst snd]; rewrite Hv; reflexivity).
        rewrite Eu, Ev.
        destruct (fold_inter_spec k rest (Some (fadd (fmul u wx) (fmul v wy)))) as [H1 _].
        cbv zeta in H1. rewrite (H1 Hx2 _ eq_refl). f_equal. unfold P, contribs. cbn [map concat fst snd].
        rewrite Hu, Hv. cbn [app fsum fold_right]. rewrite <- fadd_assoc. reflexivity.
      + intros [Hx|Hx]; [exfalso; subst L; cbn in H; lia|].
        match goal with |- fold_left ?f rest ?a = None => pose proof (fold_inter_spec k rest a) as [_ H2] end.
        cbv zeta in H2. apply H2. unfold value. cbn [fst snd].
        destruct (get x k) as [u|] eqn:Eu; [|right; reflexivity].
        destruct (get y k) as [v|] eqn:Ev; [|right; reflexivity].
        left. intros Hr. apply Hx. unfold P, in_all. constructor; [exists u; exact Eu|].
        constructor; [exists v; exact Ev|exact Hr].
  Qed.
End L.

(** ** In any arithmetic *)
Section Rounded.
  Context {F : Type} `{AF : Arith F}.
  Implicit Types (L : list (smap Z F * F)) (m : smap Z F) (k : Z) (t : plan F).

  Definition built (p : smap Z F * F) t : Prop :=
    snd p = weight_of t /\ forall k, get (fst p) k = value_at t k.
  Lemma built_both p q t u : built p t -> built q u -> built (weightedUnion (fst p) (fst q) (snd p) (snd q), f1) (Both t u).
  Proof.
    intros [Hw Hp] [Hv Hq]. split; [reflexivity|]. intros k. cbn [fst value_at]. unfold weightedUnion.
    rewrite get_merge by reflexivity. rewrite Hp, Hq, Hw, Hv. reflexivity.
  Qed.
  Lemma Forall2_perm {A B} (R : A -> B -> Prop) l l' (bs : list B) : Permutation l l' -> Forall2 R l bs ->
    exists bs', Permutation bs bs' /\ Forall2 R l' bs'.
  Proof.
    intros HP; revert bs; induction HP as [|x l l' HP IH|x y l|l1 l2 l3 H1 IH1 H2 IH2]; intros bs HF.
    - inversion HF; subst. exists []. split; constructor.
    - inversion HF as [|? b ? bs0 Hb HF']; subst. destruct (IH _ HF') as (bs' & Hp & Hf). exists (b :: bs'). split; constructor; auto.
    - inversion HF as [|? b ? bs0 Hb HF']; subst. inversion HF' as [|? c ? bs1 Hc HF'']; subst.
      exists (c :: b :: bs1). split; [apply perm_swap|]. repeat constructor; auto.
    - destruct (IH1 _ HF) as (bs1 & P1 & F1). destruct (IH2 _ F1) as (bs2 & P2 & F2). exists bs2.
      split; [eapply Permutation_trans; eassumption|exact F2].
  Qed.
  Lemma flat_map_perm {A B} (f : A -> list B) l l' : Permutation l l' -> Permutation (flat_map f l) (flat_map f l').
  Proof.
    induction 1 as [|x l l' HP IH|x y l|l1 l2 l3 H1 IH1 H2 IH2]; cbn [flat_map].
    - constructor.
    - apply Permutation_app_head, IH.
    - rewrite !app_assoc. apply Permutation_app_tail, Permutation_app_comm.
    - eapply Permutation_trans; eassumption.
  Qed.

  Lemma union_loop_plan fuel q N (l : list (smap Z F * F * Z)) ts : nb_repr q N l ->
    (length l <= fuel)%nat -> l <> [] -> Forall2 built (map fst l) ts ->
    exists q' p t, union_loop fuel q = Ok q' /\ nb_repr q' N [p] /\ built (fst p) t /\
      Permutation (inputs t) (flat_map inputs ts).
  Proof.
    revert q l ts; induction fuel as [|n IH]; intros q l ts Hq Hf Hne HF.
    { destruct l; [contradiction|cbn in Hf; lia]. }
    assert (Hlen : nb_len q = Zlen l).
    { destruct Hq as (_ & _ & _ & Hsc & _). unfold nb_len, Zlen. rewrite Hsc, rev_length, map_length. reflexivity. }
    cbn [union_loop]. rewrite Hlen.
    destruct (snoc_cases l) as [-> |[l1 [p1 ->]]]; [contradiction|].
    destruct (snoc_cases l1) as [-> |[l2 [p2 ->]]].
    - cbn [app map] in HF. inversion HF as [|? t ? ts0 Ht HF']; subst. inversion HF'; subst.
      exists q, p1, t. split; [reflexivity|]. split; [exact Hq|]. split; [exact Ht|].
      cbn [flat_map]. rewrite app_nil_r. reflexivity.
    - unfold Zlen. rewrite !app_length. cbn [length].
      destruct (Z.gtb_spec (Z.of_nat (length l2 + 1 + 1)) 1) as [_|Hbad]; [|lia].
      pose proof (nb_pop_repr q N _ Hq) as Hp1.
      rewrite rev_app_distr, removelast_app in Hp1 by discriminate. cbn [rev app removelast] in Hp1.
      rewrite app_nil_r in Hp1. destruct Hp1 as [q1 [-> Hq1]]. cbn [bind].
      pose proof (nb_pop_repr q1 N _ Hq1) as Hp2.
      rewrite rev_app_distr, removelast_app in Hp2 by discriminate. cbn [rev app removelast] in Hp2.
      rewrite app_nil_r in Hp2. destruct Hp2 as [q2 [-> Hq2]]. cbn [bind].
      set (z := weightedUnion _ _ _ _).
      unfold nb_add. destruct (nb_addmany_repr q2 N l2 [((z, f1), Zsize z)] Hq2) as [q3 [-> Hq3]]. cbn [bind].
      cbn [fold_left] in Hq3.
      destruct Hq as (_ & _ & Hl & _ & _ & _). rewrite !app_length in Hl. cbn [length] in Hl.
      assert (Hperm : Permutation (best_add N l2 ((z, f1), Zsize z)) (((z, f1), Zsize z) :: l2)).
      { apply best_add_perm; [lia|]. apply Hq2. }
      assert (Hsplit : exists t1 t2 ts2, built (fst p1) t1 /\ built (fst p2) t2 /\ Forall2 built (map fst l2) ts2 /\
        Permutation (flat_map inputs ts) (inputs t1 ++ inputs t2 ++ flat_map inputs ts2)).
      { rewrite !map_app in HF. cbn [map] in HF.
        destruct (Forall2_perm built ((map fst l2 ++ [fst p2]) ++ [fst p1]) (fst p1 :: fst p2 :: map fst l2) ts) as (bs & Hb & HF'); [|exact HF|].
        { rewrite <- app_assoc. cbn [app]. rewrite Permutation_app_comm. cbn [app]. apply perm_swap. }
        inversion HF' as [|? t1 ? bs1 H1 HF1]; subst. inversion HF1 as [|? t2 ? bs2 H2 HF2]; subst.
        exists t1, t2, bs2. split; [exact H1|]. split; [exact H2|]. split; [exact HF2|].
        rewrite (flat_map_perm inputs _ _ Hb). reflexivity. }
      destruct Hsplit as (t1 & t2 & ts2 & B1 & B2 & HF2 & HP).
      assert (Hz : built (z, f1) (Both t1 t2)).
      { pose proof (built_both _ _ _ _ B1 B2) as B. destruct p1 as [[? ?] ?], p2 as [[? ?] ?]. exact B. }
      destruct (Forall2_perm built ((z, f1) :: map fst l2) (map fst (best_add N l2 ((z, f1), Zsize z))) (Both t1 t2 :: ts2)) as (bs & Hb & HFb).
      { symmetry. exact (Permutation_map fst Hperm). }
      { constructor; assumption. }
      destruct (IH q3 _ bs Hq3) as (q' & p & t & H2 & H3 & H4 & H5).
      + rewrite (Permutation_length Hperm). cbn [length]. rewrite !app_length in Hf. cbn [length] in Hf. lia.
      + intros E. rewrite E in Hperm. apply Permutation_nil in Hperm. discriminate.
      + exact HFb.
      + exists q', p, t. split; [exact H2|]. split; [exact H3|]. split; [exact H4|].
        rewrite H5, <- (flat_map_perm inputs _ _ Hb), HP. cbn [flat_map inputs]. rewrite <- app_assoc. reflexivity.
  Qed.

  Lemma built_inputs L : Forall2 built L (map (fun p => Input (fst p) (snd p)) L).
  Proof. induction L as [|p L IH]; cbn [map]; constructor; [split; reflexivity|exact IH]. Qed.
  Lemma inputs_inputs L : flat_map inputs (map (fun p => Input (fst p) (snd p)) L) = L.
  Proof. induction L as [|[m w] L IH]; cbn [map flat_map inputs fst snd app]; [reflexivity|]. rewrite IH. reflexivity. Qed.
  Lemma trivial_alone m w : exists r, trivial [(m, w)] = Ok r /\ forall k, get r k = alone m w k.
  Proof.
    cbn [trivial]. unfold alone. destruct (feqb w f1); cbn [negb]; eexists; (split; [reflexivity|]); intros k.
    - destruct (get m k); reflexivity.
    - unfold weightedUnion. rewrite get_merge by reflexivity. rewrite get_empty. destruct (get m k); reflexivity.
  Qed.
  Lemma union_rounded L : exists r, mass_weightedUnion L = Ok r /\
    match L with
    | [] => r = empty
    | [(m, w)] => forall k, get r k = alone m w k
    | _ => exists t, Permutation (inputs t) L /\ forall k, get r k = value_at t k
    end.
  Proof.
    destruct (Nat.lt_ge_cases (length L) 2) as [H|H].
    - unfold mass_weightedUnion. destruct (Nat.ltb_spec (length L) 2); [|lia].
      destruct L as [|[m w] [|? ?]]; [exists empty; split; reflexivity| |cbn in H; lia]. apply trivial_alone.
    - assert (X : exists r, mass_weightedUnion L = Ok r /\ exists t, Permutation (inputs t) L /\ forall k, get r k = value_at t k).
      { unfold mass_weightedUnion. destruct (Nat.ltb_spec (length L) 2) as [H'|_]; [lia|].
        destruct (@nb_new_repr (smap Z F * F) Z _ (length L) ltac:(lia)) as [q0 [H0 Hr0]].
        unfold Zlen. rewrite H0. cbn [bind].
        destruct (union_fill_repr L q0 _ [] Hr0 ltac:(cbn; lia)) as [q [l [-> [Hr Hp]]]]. cbn [bind].
        cbn [map app] in Hp.
        assert (Hlen : length l = length L) by (rewrite <- (Permutation_length Hp), map_length; reflexivity).
        destruct (Forall2_perm built L (map fst l) _ (Permutation_sym Hp) (built_inputs L)) as (ts & Hts & HF).
        destruct (union_loop_plan (length L) q (length L) l ts Hr) as (q' & p & t & -> & Hr' & Hb & Hi).
        - lia.
        - intros ->. cbn in Hlen. lia.
        - exact HF.
        - cbn [bind]. pose proof (nb_pop_repr q' _ _ Hr') as Hpop. cbn in Hpop. destruct Hpop as [q'' [-> _]].
          cbn [bind]. eexists; split; [reflexivity|]. exists t. split; [|apply Hb].
          rewrite Hi, <- (flat_map_perm inputs _ _ Hts), inputs_inputs. reflexivity. }
      destruct L as [|[m w] [|p L]]; [cbn in H; lia|cbn in H; lia|exact X].
  Qed.

  Lemma get_inter_fold k rest m :
    get (fold_left (fun result p => weightedIntersection result (fst p) f1 (snd p)) rest m) k = running k (get m k) rest.
  Proof.
    revert m; induction rest as [|[x w] rest IH]; intros m; cbn [fold_left running]; [reflexivity|].
    rewrite IH. cbn [fst snd]. unfold weightedIntersection. rewrite get_merge by reflexivity.
    destruct (get m k), (get x k); reflexivity.
  Qed.
  Lemma inter_rounded (L0 : list (option (smap Z F) * F)) :
    exists r, mass_weightedIntersection L0 = Ok r /\
    match not_none L0 with
    | [] => r = empty
    | [(m, w)] => forall k, get r k = alone m w k
    | L => exists P, Permutation P L /\ StronglySorted (fun p q => Zsize (fst p) <= Zsize (fst q)) P /\
                     forall k, get r k = from_the_left k P
    end.
  Proof.
    unfold mass_weightedIntersection. change (drop_none L0) with (not_none L0).
    set (L := not_none L0). clearbody L.
    destruct (Nat.ltb_spec (length L) 2) as [H|H].
    - destruct L as [|[m w] [|? ?]]; [exists empty; split; reflexivity| |cbn in H; lia]. apply trivial_alone.
    - pose proof (isort_perm by_len L) as Hp.
      assert (Hs : StronglySorted (fun p q => by_len p q = true) (isort by_len L)).
      { apply isort_sorted.
        - intros p q. unfold by_len. rewrite !Z.leb_le. lia.
        - intros p q r. unfold by_len. rewrite !Z.leb_le. lia. }
      assert (X : exists r, match isort by_len L with
        | (x, wx) :: (y, wy) :: rest =>
            Ok (fold_left (fun result p => weightedIntersection result (fst p) f1 (snd p)) rest (weightedIntersection x y wx wy))
        | _ => Raise ValueError end = Ok r /\
        exists P, Permutation P L /\ StronglySorted (fun p q => Zsize (fst p) <= Zsize (fst q)) P /\
                     forall k, get r k = from_the_left k P).
      { destruct (isort by_len L) as [|[x wx] [|[y wy] rest]] eqn:E;
          try (apply Permutation_length in Hp; cbn in Hp; lia).
        eexists; split; [reflexivity|]. exists ((x, wx) :: (y, wy) :: rest). split; [exact Hp|]. split.
        - clear -Hs. induction Hs as [|p l Hl IH Ha]; constructor; [exact IH|].
          eapply Forall_impl; [|exact Ha]. intros q Hq. unfold by_len in Hq. apply Z.leb_le in Hq. exact Hq.
        - intros k. rewrite get_inter_fold. cbn [from_the_left]. unfold weightedIntersection. rewrite get_merge by reflexivity.
          destruct (get x k), (get y k); reflexivity. }
      destruct L as [|[m w] [|p L]]; [cbn in H; lia|cbn in H; lia|exact X].
  Qed.
End Rounded.
