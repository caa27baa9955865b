(** * SMap: finite maps as strictly sorted association lists.

    This is the model of the external BTrees containers (BTree, Bucket) and of
    Python dicts; [sset] models Set and TreeSet.  Iteration order is ascending
    key order.  The sortedness proof is a boolean equality, so two maps with the
    same lookups are equal (no axiom needed). *)
From Coq Require Import Eqdep_dec.
From Verif Require Export Ord.

Section Raw.
  Context {K V : Type} `{OK : Ord K}.

  Fixpoint rget (l : list (K * V)) (k : K) : option V :=
    match l with
    | [] => None
    | (k', v) :: l' => if eqb k k' then Some v else rget l' k
    end.

  Fixpoint rput (k : K) (v : V) (l : list (K * V)) : list (K * V) :=
    match l with
    | [] => [(k, v)]
    | (k', v') :: l' =>
        match cmp k k' with
        | Lt => (k, v) :: l
        | Eq => (k, v) :: l'
        | Gt => (k', v') :: rput k v l'
        end
    end.

  Definition rdel (k : K) (l : list (K * V)) : list (K * V) :=
    filter (fun kv => negb (eqb k (fst kv))) l.

  Lemma rget_rput l k v k' :
    rget (rput k v l) k' = if eqb k' k then Some v else rget l k'.
  Proof.
    induction l as [|[k0 v0] l IH]; simpl.
    - reflexivity.
    - destruct (cmp_spec k k0) as [E|E|E]; simpl.
      + subst k0. destruct (eqb k' k); reflexivity.
      + reflexivity.
      + rewrite IH. destruct (eqb k' k) eqn:E1; [|reflexivity].
        apply eqb_eq in E1; subst k'. destruct (eqb k k0) eqn:E2; [|reflexivity].
        apply eqb_eq in E2; subst. exfalso; exact (lt_irrefl _ E).
  Qed.

  Lemma rget_rdel l k k' :
    rget (rdel k l) k' = if eqb k' k then None else rget l k'.
  Proof.
    induction l as [|[k0 v0] l IH]; simpl.
    - destruct (eqb k' k); reflexivity.
    - destruct (eqb k k0) eqn:E; simpl.
      + rewrite IH. apply eqb_eq in E; subst k0. destruct (eqb k' k); reflexivity.
      + rewrite IH. destruct (eqb k' k0) eqn:E1; [|reflexivity].
        apply eqb_eq in E1; subst k0. rewrite eqb_sym, E. reflexivity.
  Qed.

  Definition Ssorted (l : list (K * V)) : Prop := StronglySorted lt (map fst l).

  Lemma rput_keys k v l x : In x (map fst (rput k v l)) <-> x = k \/ In x (map fst l).
  Proof.
    induction l as [|[k0 v0] l IH]; simpl.
    - intuition.
    - destruct (cmp_spec k k0) as [E|E|E]; simpl.
      + subst k0; intuition.
      + intuition.
      + rewrite IH; intuition.
  Qed.

  Lemma rput_sorted k v l : Ssorted l -> Ssorted (rput k v l).
  Proof.
    unfold Ssorted. induction l as [|[k0 v0] l IH]; simpl; intros H.
    - repeat constructor.
    - inversion H as [|? ? Hs Hf]; subst.
      destruct (cmp_spec k k0) as [E|E|E]; simpl.
      + subst; exact H.
      + constructor; [exact H|]. constructor; [exact E|].
        eapply Forall_impl; [|exact Hf]. intros a Ha; eapply lt_trans; eassumption.
      + constructor; [apply IH; exact Hs|].
        apply Forall_forall; intros x Hx. apply rput_keys in Hx as [-> |Hx]; [exact E|].
        rewrite Forall_forall in Hf; apply Hf; exact Hx.
  Qed.

  Lemma filter_sorted (f : K * V -> bool) l : Ssorted l -> Ssorted (filter f l).
  Proof.
    unfold Ssorted. induction l as [|[k0 v0] l IH]; simpl; intros H; [constructor|].
    inversion H as [|? ? Hs Hf]; subst.
    destruct (f (k0, v0)); simpl; [|apply IH; exact Hs].
    constructor; [apply IH; exact Hs|].
    apply Forall_forall; intros x Hx. rewrite Forall_forall in Hf; apply Hf.
    apply in_map_iff in Hx as [kv [<- Hkv]]. apply filter_In in Hkv as [Hkv _].
    apply in_map; exact Hkv.
  Qed.

  Lemma rget_None_notin l k : rget l k = None <-> ~ In k (map fst l).
  Proof.
    induction l as [|[k0 v0] l IH]; simpl; [intuition|].
    destruct (eqb k k0) eqn:E.
    - apply eqb_eq in E; subst; split; [discriminate|intuition].
    - apply eqb_neq in E. rewrite IH; intuition.
  Qed.

  Lemma rget_In l k v : Ssorted l -> (rget l k = Some v <-> In (k, v) l).
  Proof.
    unfold Ssorted. induction l as [|[k0 v0] l IH]; simpl; intros H.
    - split; [discriminate|contradiction].
    - inversion H as [|? ? Hs Hf]; subst. specialize (IH Hs).
      destruct (eqb k k0) eqn:E.
      + apply eqb_eq in E; subst k0. split.
        * intros He; injection He as ->; left; reflexivity.
        * intros [He|Hin]; [injection He as ->; reflexivity|].
          exfalso. rewrite Forall_forall in Hf.
          apply (lt_irrefl k), Hf. apply in_map_iff; exists (k, v); auto.
      + apply eqb_neq in E. rewrite IH. split; [auto|].
        intros [He|Hin]; [injection He as -> ->; contradiction|exact Hin].
  Qed.

  Lemma rget_head_lt l k : Forall (lt k) (map fst l) -> rget l k = None.
  Proof.
    intros H; apply rget_None_notin; intros Hin.
    rewrite Forall_forall in H. exact (lt_irrefl _ (H _ Hin)).
  Qed.

  Lemma raw_ext l1 l2 :
    Ssorted l1 -> Ssorted l2 -> (forall k, rget l1 k = rget l2 k) -> l1 = l2.
  Proof.
    unfold Ssorted. revert l2; induction l1 as [|[k1 v1] l1 IH]; intros [|[k2 v2] l2] H1 H2 H.
    - reflexivity.
    - specialize (H k2); simpl in H; rewrite eqb_refl in H; discriminate.
    - specialize (H k1); simpl in H; rewrite eqb_refl in H; discriminate.
    - simpl in H1, H2. inversion H1 as [|? ? Hs1 Hf1]; inversion H2 as [|? ? Hs2 Hf2]; subst.
      assert (Hk : k1 = k2).
      { destruct (cmp_spec k1 k2) as [E|E|E]; [exact E| |].
        - pose proof (H k1) as Hk; simpl in Hk. rewrite eqb_refl in Hk.
          rewrite (proj2 (eqb_neq k1 k2)) in Hk by (apply lt_not_eq; exact E).
          rewrite rget_head_lt in Hk; [discriminate|].
          eapply Forall_impl; [|exact Hf2]; intros a Ha; eapply lt_trans; eassumption.
        - pose proof (H k2) as Hk; simpl in Hk. rewrite eqb_refl in Hk.
          rewrite (proj2 (eqb_neq k2 k1)) in Hk by (apply lt_not_eq; exact E).
          rewrite rget_head_lt in Hk; [discriminate|].
          eapply Forall_impl; [|exact Hf1]; intros a Ha; eapply lt_trans; eassumption. }
      subst k2.
      assert (Hv : v1 = v2).
      { pose proof (H k1) as Hk; simpl in Hk; rewrite eqb_refl in Hk; congruence. }
      subst v2. f_equal. apply IH; [exact Hs1|exact Hs2|].
      intros k. pose proof (H k) as Hk; simpl in Hk.
      destruct (eqb k k1) eqn:E; [|exact Hk].
      apply eqb_eq in E; subst k. rewrite !rget_head_lt; auto.
  Qed.

  (** Boolean sortedness (irrelevant proofs). *)
  Fixpoint sortedb (l : list (K * V)) : bool :=
    match l with
    | [] => true
    | (k, _) :: l' =>
        match l' with
        | [] => true
        | (k', _) :: _ => ltb k k'
        end && sortedb l'
    end.

  Lemma sortedb_ok l : sortedb l = true <-> Ssorted l.
  Proof.
    unfold Ssorted. induction l as [|[k v] l IH]; simpl; split; intros H.
    - constructor.
    - reflexivity.
    - apply andb_true_iff in H as [H1 H2]. apply IH in H2.
      constructor; [exact H2|]. destruct l as [|[k' v'] l]; simpl; [constructor|].
      apply ltb_lt in H1. constructor; [exact H1|].
      simpl in H2; inversion H2 as [|? ? Hs Hf]; subst.
      eapply Forall_impl; [|exact Hf]; intros a Ha; eapply lt_trans; eassumption.
    - inversion H as [|? ? Hs Hf]; subst. apply andb_true_iff; split; [|apply IH; exact Hs].
      destruct l as [|[k' v'] l]; [reflexivity|]. simpl in Hf. inversion Hf; subst.
      apply ltb_lt; assumption.
  Qed.
End Raw.

Record smap (K V : Type) `{OK : Ord K} := mkSMap {
  elts : list (K * V);
  elts_ok : sortedb elts = true
}.
Arguments mkSMap {K V OK} elts elts_ok.
Arguments elts {K V OK} s.
Arguments elts_ok {K V OK} s.

Section SMap.
  Context {K V : Type} `{OK : Ord K}.
  Local Notation smap := (smap K V).
  Implicit Types (m : smap) (k : K) (v : V).

  Definition get (m : smap) (k : K) : option V := rget (elts m) k.
  Definition empty : smap := mkSMap [] eq_refl.

  Lemma elts_sorted (m : smap) : Ssorted (elts m).
  Proof. apply sortedb_ok, elts_ok. Qed.

  Lemma put_ok k v (m : smap) : sortedb (rput k v (elts m)) = true.
  Proof. apply sortedb_ok, rput_sorted, elts_sorted. Qed.
  Definition put (k : K) (v : V) (m : smap) : smap := mkSMap (rput k v (elts m)) (put_ok k v m).

  Lemma del_ok k (m : smap) : sortedb (rdel k (elts m)) = true.
  Proof. apply sortedb_ok, filter_sorted, elts_sorted. Qed.
  Definition del (k : K) (m : smap) : smap := mkSMap (rdel k (elts m)) (del_ok k m).

  Definition mem (k : K) (m : smap) : bool := is_some (get m k).
  Definition keys (m : smap) : list K := map fst (elts m).
  Definition vals (m : smap) : list V := map snd (elts m).
  Definition size (m : smap) : nat := length (elts m).
  Definition Zsize (m : smap) : Z := Z.of_nat (size m).
  Definition is_empty (m : smap) : bool := match elts m with [] => true | _ => false end.

  Definition of_list (l : list (K * V)) : smap := fold_left (fun m kv => put (fst kv) (snd kv) m) l empty.

  Lemma sfilter_ok (f : K * V -> bool) (m : smap) : sortedb (filter f (elts m)) = true.
  Proof. apply sortedb_ok, filter_sorted, elts_sorted. Qed.
  Definition sfilter (f : K -> V -> bool) (m : smap) : smap :=
    mkSMap (filter (fun kv => f (fst kv) (snd kv)) (elts m)) (sfilter_ok _ m).

  Lemma smap_ext (m1 m2 : smap) : (forall k, get m1 k = get m2 k) -> m1 = m2.
  Proof.
    intros H. assert (He : elts m1 = elts m2).
    { apply raw_ext; [apply elts_sorted|apply elts_sorted|exact H]. }
    destruct m1 as [l1 p1], m2 as [l2 p2]; simpl in He; subst l2.
    f_equal. apply UIP_dec. apply bool_dec.
  Qed.

  Lemma elts_inj (m1 m2 : smap) : elts m1 = elts m2 -> m1 = m2.
  Proof. intros H; apply smap_ext; intros k; unfold get; rewrite H; reflexivity. Qed.

  Lemma get_empty k : get empty k = None.
  Proof. reflexivity. Qed.

  Lemma get_put k v m k' : get (put k v m) k' = if eqb k' k then Some v else get m k'.
  Proof. apply rget_rput. Qed.

  Lemma get_put_same k v m : get (put k v m) k = Some v.
  Proof. rewrite get_put, eqb_refl; reflexivity. Qed.

  Lemma get_put_other k v m k' : k' <> k -> get (put k v m) k' = get m k'.
  Proof. intros H; rewrite get_put. apply eqb_neq in H; rewrite H; reflexivity. Qed.

  Lemma get_del k m k' : get (del k m) k' = if eqb k' k then None else get m k'.
  Proof. apply rget_rdel. Qed.

  Lemma get_del_same k m : get (del k m) k = None.
  Proof. rewrite get_del, eqb_refl; reflexivity. Qed.

  Lemma get_del_other k m k' : k' <> k -> get (del k m) k' = get m k'.
  Proof. intros H; rewrite get_del. apply eqb_neq in H; rewrite H; reflexivity. Qed.

  Lemma get_In m k v : get m k = Some v <-> In (k, v) (elts m).
  Proof. apply rget_In, elts_sorted. Qed.

  Lemma mem_get m k : mem k m = true <-> exists v, get m k = Some v.
  Proof.
    unfold mem, is_some; destruct (get m k) as [v|]; split; try discriminate; eauto.
    intros [v H]; discriminate.
  Qed.

  Lemma mem_false m k : mem k m = false <-> get m k = None.
  Proof. unfold mem, is_some; destruct (get m k); split; congruence. Qed.

  Lemma keys_In m k : In k (keys m) <-> exists v, get m k = Some v.
  Proof.
    unfold keys; rewrite in_map_iff; split.
    - intros [[k' v] [<- H]]; exists v; apply get_In; exact H.
    - intros [v H]; exists (k, v); split; [reflexivity|apply get_In; exact H].
  Qed.

  Lemma keys_mem m k : In k (keys m) <-> mem k m = true.
  Proof. rewrite keys_In, mem_get; reflexivity. Qed.

  Lemma keys_sorted m : StronglySorted lt (keys m).
  Proof. apply elts_sorted. Qed.

  Lemma StronglySorted_lt_NoDup (l : list K) : StronglySorted lt l -> NoDup l.
  Proof.
    induction 1 as [|x l Hs IH Hf]; constructor; [|exact IH].
    intros Hin; rewrite Forall_forall in Hf; exact (lt_irrefl _ (Hf _ Hin)).
  Qed.

  Lemma keys_NoDup m : NoDup (keys m).
  Proof. apply StronglySorted_lt_NoDup, keys_sorted. Qed.

  Lemma elts_NoDup m : NoDup (elts m).
  Proof. eapply NoDup_map_inv; apply keys_NoDup. Qed.

  Lemma vals_In m v : In v (vals m) <-> exists k, get m k = Some v.
  Proof.
    unfold vals; rewrite in_map_iff; split.
    - intros [[k v'] [<- H]]; exists k; apply get_In; exact H.
    - intros [k H]; exists (k, v); split; [reflexivity|apply get_In; exact H].
  Qed.

  Lemma put_del_perm k v m : Permutation (elts (put k v m)) ((k, v) :: elts (del k m)).
  Proof.
    apply NoDup_Permutation.
    - apply elts_NoDup.
    - constructor; [|apply elts_NoDup]. rewrite <- get_In, get_del_same. discriminate.
    - intros [k' v']. cbn [In]. rewrite <- !get_In, get_put, get_del.
      destruct (eqb k' k) eqn:E.
      + apply eqb_eq in E; subst k'. split.
        * intros H; injection H as ->; left; reflexivity.
        * intros [H|H]; [injection H as ->; reflexivity|discriminate].
      + apply eqb_neq in E. split; [auto|]. intros [H|H]; [injection H as -> ->; contradiction|exact H].
  Qed.

  Lemma del_perm k v m : get m k = Some v -> Permutation (elts m) ((k, v) :: elts (del k m)).
  Proof.
    intros Hg. apply NoDup_Permutation.
    - apply elts_NoDup.
    - constructor; [|apply elts_NoDup]. rewrite <- get_In, get_del_same. discriminate.
    - intros [k' v']. cbn [In]. rewrite <- !get_In, get_del.
      destruct (eqb k' k) eqn:E.
      + apply eqb_eq in E; subst k'. rewrite Hg. split.
        * intros H; injection H as ->; left; reflexivity.
        * intros [H|H]; [injection H as ->; reflexivity|discriminate].
      + apply eqb_neq in E. split; [auto|]. intros [H|H]; [injection H as -> ->; contradiction|exact H].
  Qed.

  Lemma del_absent k m : get m k = None -> del k m = m.
  Proof.
    intros H; apply smap_ext; intros k'. rewrite get_del.
    destruct (eqb k' k) eqn:E; [|reflexivity]. apply eqb_eq in E; subst; congruence.
  Qed.

  Lemma put_same_id k v m : get m k = Some v -> put k v m = m.
  Proof.
    intros H; apply smap_ext; intros k'. rewrite get_put.
    destruct (eqb k' k) eqn:E; [|reflexivity]. apply eqb_eq in E; subst; congruence.
  Qed.

  Lemma put_del k v m : put k v (del k m) = put k v m.
  Proof.
    apply smap_ext; intros k'. rewrite !get_put, get_del. destruct (eqb k' k); reflexivity.
  Qed.

  Lemma del_put k v m : del k (put k v m) = del k m.
  Proof.
    apply smap_ext; intros k'. rewrite !get_del, get_put. destruct (eqb k' k); reflexivity.
  Qed.

  Lemma put_put k v v' m : put k v (put k v' m) = put k v m.
  Proof.
    apply smap_ext; intros k'. rewrite !get_put. destruct (eqb k' k); reflexivity.
  Qed.

  Lemma size_put_new k v m : get m k = None -> size (put k v m) = S (size m).
  Proof.
    intros H. unfold size. rewrite (Permutation_length (put_del_perm k v m)).
    rewrite del_absent by exact H. reflexivity.
  Qed.

  Lemma size_put_old k v v' m : get m k = Some v' -> size (put k v m) = size m.
  Proof.
    intros H. unfold size. rewrite (Permutation_length (put_del_perm k v m)).
    rewrite (Permutation_length (del_perm k v' m H)). reflexivity.
  Qed.

  Lemma size_del k v m : get m k = Some v -> size m = S (size (del k m)).
  Proof.
    intros H. unfold size. rewrite (Permutation_length (del_perm k v m H)). reflexivity.
  Qed.

  Lemma Zsize_put_new k v m : get m k = None -> Zsize (put k v m) = Zsize m + 1.
  Proof. intros H; unfold Zsize; rewrite size_put_new by exact H; lia. Qed.

  Lemma Zsize_put_old k v v' m : get m k = Some v' -> Zsize (put k v m) = Zsize m.
  Proof. intros H; unfold Zsize; rewrite (size_put_old _ _ _ _ H); reflexivity. Qed.

  Lemma Zsize_del k v m : get m k = Some v -> Zsize (del k m) = Zsize m - 1.
  Proof. intros H; unfold Zsize; rewrite (size_del _ _ _ H); lia. Qed.

  Lemma is_empty_spec m : is_empty m = true <-> m = empty.
  Proof.
    unfold is_empty; split.
    - destruct (elts m) as [|x l] eqn:E; [|discriminate]. intros _.
      apply elts_inj; exact E.
    - intros ->; reflexivity.
  Qed.

  Lemma is_empty_get m : is_empty m = true <-> forall k, get m k = None.
  Proof.
    rewrite is_empty_spec; split.
    - intros ->; reflexivity.
    - intros H; apply smap_ext; exact H.
  Qed.

  Lemma is_empty_false m : is_empty m = false <-> exists k v, get m k = Some v.
  Proof.
    unfold is_empty. destruct (elts m) as [|[k v] l] eqn:E; split; try discriminate; try reflexivity.
    - intros [k [v H]]. apply get_In in H; rewrite E in H; contradiction.
    - intros _; exists k, v. apply get_In; rewrite E; left; reflexivity.
  Qed.

  Lemma size_0 m : size m = 0%nat <-> m = empty.
  Proof.
    unfold size; split.
    - intros H; apply length_zero_iff_nil in H. apply elts_inj; exact H.
    - intros ->; reflexivity.
  Qed.

  Lemma get_sfilter f m k :
    get (sfilter f m) k = match get m k with Some v => if f k v then Some v else None | None => None end.
  Proof.
    destruct (get (sfilter f m) k) as [v|] eqn:E.
    - apply get_In in E. simpl in E. apply filter_In in E as [E1 E2]. simpl in E2.
      apply get_In in E1; rewrite E1, E2; reflexivity.
    - destruct (get m k) as [v|] eqn:Eg; [|reflexivity].
      destruct (f k v) eqn:Ef; [|reflexivity].
      assert (H : In (k, v) (elts (sfilter f m))).
      { simpl. apply filter_In; split; [apply get_In; exact Eg|exact Ef]. }
      apply get_In in H; congruence.
  Qed.

  Lemma fold_put_get (l : list (K * V)) m k :
    get (fold_left (fun m kv => put (fst kv) (snd kv) m) l m) k =
    match rget (rev l) k with Some v => Some v | None => get m k end.
  Proof.
    revert m; induction l as [|[k0 v0] l IH]; intros m; simpl; [reflexivity|].
    rewrite IH, get_put.
    assert (Happ : forall l1 l2 : list (K * V), rget (l1 ++ l2) k =
        match rget l1 k with Some v => Some v | None => rget l2 k end).
    { induction l1 as [|[k1 v1] l1 IH1]; intros l2; simpl; [reflexivity|].
      destruct (eqb k k1); [reflexivity|apply IH1]. }
    rewrite Happ. destruct (rget (rev l) k); [reflexivity|]. simpl.
    destruct (eqb k k0); reflexivity.
  Qed.

  Lemma get_of_list l k : get (of_list l) k = rget (rev l) k.
  Proof.
    unfold of_list; rewrite fold_put_get, get_empty. destruct (rget (rev l) k); reflexivity.
  Qed.

  (** Induction over maps by insertion of fresh keys. *)
  Lemma smap_ind (P : smap -> Prop) :
    P empty -> (forall k v m, get m k = None -> P m -> P (put k v m)) -> forall m, P m.
  Proof.
    intros H0 HS m. remember (size m) as n eqn:Hn.
    revert m Hn; induction n as [|n IH]; intros m Hn.
    - symmetry in Hn; apply size_0 in Hn; subst; exact H0.
    - destruct (elts m) as [|[k v] l] eqn:E.
      + unfold size in Hn; rewrite E in Hn; discriminate.
      + assert (Hg : get m k = Some v) by (apply get_In; rewrite E; left; reflexivity).
        rewrite <- (put_same_id k v m Hg), <- put_del. apply HS; [apply get_del_same|].
        apply IH. pose proof (size_del _ _ _ Hg); lia.
  Qed.
End SMap.

(** Value mapping, and merging of two maps. *)
Section Merge.
  Context {K : Type} `{OK : Ord K}.

  Lemma smap_map_ok {A B} (f : K -> A -> B) (m : smap K A) :
    sortedb (map (fun kv => (fst kv, f (fst kv) (snd kv))) (elts m)) = true.
  Proof.
    apply sortedb_ok. unfold Ssorted. rewrite map_map. simpl. apply elts_sorted.
  Qed.
  Definition mmap {A B} (f : K -> A -> B) (m : smap K A) : smap K B :=
    mkSMap (map (fun kv => (fst kv, f (fst kv) (snd kv))) (elts m)) (smap_map_ok f m).

  Lemma get_mmap {A B} (f : K -> A -> B) m k :
    get (mmap f m) k = match get m k with Some v => Some (f k v) | None => None end.
  Proof.
    unfold get, mmap; simpl. induction (elts m) as [|[k0 v0] l IH]; simpl; [reflexivity|].
    destruct (eqb k k0) eqn:E; [|exact IH]. apply eqb_eq in E; subst; reflexivity.
  Qed.

  Lemma keys_mmap {A B} (f : K -> A -> B) m : keys (mmap f m) = keys m.
  Proof. unfold keys, mmap; simpl. rewrite map_map; reflexivity. Qed.

  Lemma size_mmap {A B} (f : K -> A -> B) m : size (mmap f m) = size m.
  Proof. unfold size, mmap; simpl. apply map_length. Qed.

  (** Merge of two maps; [f] decides for every key from the two lookups. *)
  Fixpoint rmerge_keys {A B C} (f : option A -> option B -> option C)
      (m1 : smap K A) (m2 : smap K B) (ks : list K) : smap K C :=
    match ks with
    | [] => empty
    | k :: ks' =>
        match f (get m1 k) (get m2 k) with
        | Some c => put k c (rmerge_keys f m1 m2 ks')
        | None => rmerge_keys f m1 m2 ks'
        end
    end.

  Definition merge {A B C} (f : option A -> option B -> option C)
      (m1 : smap K A) (m2 : smap K B) : smap K C :=
    rmerge_keys f m1 m2 (keys m1 ++ keys m2).

  Lemma get_rmerge_keys {A B C} (f : option A -> option B -> option C) m1 m2 ks k :
    get (rmerge_keys f m1 m2 ks) k =
    if existsb (eqb k) ks then f (get m1 k) (get m2 k) else None.
  Proof.
    induction ks as [|k0 ks IH]; simpl; [reflexivity|].
    destruct (eqb k k0) eqn:E; simpl.
    - apply eqb_eq in E; subst k0. destruct (f (get m1 k) (get m2 k)) as [c|] eqn:Ef.
      + apply get_put_same.
      + rewrite IH. destruct (existsb (eqb k) ks); reflexivity.
    - destruct (f (get m1 k0) (get m2 k0)) as [c|] eqn:Ef; [|exact IH].
      rewrite get_put_other by (apply eqb_neq; exact E). exact IH.
  Qed.

  Lemma get_merge {A B C} (f : option A -> option B -> option C) m1 m2 k :
    f None None = None -> get (merge f m1 m2) k = f (get m1 k) (get m2 k).
  Proof.
    intros Hf. unfold merge. rewrite get_rmerge_keys.
    destruct (existsb (eqb k) (keys m1 ++ keys m2)) eqn:E; [reflexivity|].
    assert (Hn : ~ In k (keys m1 ++ keys m2)).
    { intros Hin. assert (existsb (eqb k) (keys m1 ++ keys m2) = true); [|congruence].
      apply existsb_exists; exists k; split; [exact Hin|apply eqb_refl]. }
    rewrite in_app_iff, !keys_In in Hn.
    destruct (get m1 k) as [a|]; [exfalso; apply Hn; left; eauto|].
    destruct (get m2 k) as [b|]; [exfalso; apply Hn; right; eauto|].
    symmetry; exact Hf.
  Qed.
End Merge.

(** ** Sets *)
Notation sset K := (smap K unit).

Section SSet.
  Context {K : Type} `{OK : Ord K}.

  Definition sadd (k : K) (s : sset K) : sset K := put k tt s.
  Definition srem (k : K) (s : sset K) : sset K := del k s.
  Definition set_of_list (l : list K) : sset K := fold_left (fun s k => sadd k s) l empty.
  Definition selems (s : sset K) : list K := keys s.

  Definition union_opt (a b : option unit) : option unit :=
    match a, b with None, None => None | _, _ => Some tt end.
  Definition inter_opt (a b : option unit) : option unit :=
    match a, b with Some _, Some _ => Some tt | _, _ => None end.
  Definition diff_opt {V W} (a : option V) (b : option W) : option V :=
    match b with None => a | Some _ => None end.

  Definition sunion (s1 s2 : sset K) : sset K := merge union_opt s1 s2.
  Definition sinter (s1 s2 : sset K) : sset K := merge inter_opt s1 s2.
  (** [difference] of BTrees: works on maps too and keeps the values of the first. *)
  Definition mdiff {V W} (m1 : smap K V) (m2 : smap K W) : smap K V := merge diff_opt m1 m2.
  (** [multiunion]. *)
  Definition multiunion (l : list (sset K)) : sset K := fold_left sunion l empty.

  Lemma sset_get (s : sset K) k : get s k = if mem k s then Some tt else None.
  Proof. unfold mem; destruct (get s k) as [[]|]; reflexivity. Qed.

  Lemma sset_ext (s1 s2 : sset K) : (forall k, mem k s1 = mem k s2) -> s1 = s2.
  Proof. intros H; apply smap_ext; intros k; rewrite !sset_get, H; reflexivity. Qed.

  Lemma is_empty_mem (s : sset K) : is_empty s = true <-> forall k, mem k s = false.
  Proof.
    rewrite is_empty_get. split; intros H d; specialize (H d); [apply mem_false|apply mem_false in H]; exact H.
  Qed.

  Lemma mem_put {V} k v (m : smap K V) k' : mem k' (put k v m) = eqb k' k || mem k' m.
  Proof. unfold mem; rewrite get_put. destruct (eqb k' k); reflexivity. Qed.

  Lemma mem_del {V} k (m : smap K V) k' : mem k' (del k m) = negb (eqb k' k) && mem k' m.
  Proof. unfold mem; rewrite get_del. destruct (eqb k' k); reflexivity. Qed.

  Lemma mem_sadd k (s : sset K) k' : mem k' (sadd k s) = eqb k' k || mem k' s.
  Proof. apply mem_put. Qed.

  Lemma mem_srem k (s : sset K) k' : mem k' (srem k s) = negb (eqb k' k) && mem k' s.
  Proof. apply mem_del. Qed.

  Lemma mem_sunion s1 s2 k : mem k (sunion s1 s2) = mem k s1 || mem k s2.
  Proof.
    unfold sunion, mem. rewrite get_merge by reflexivity.
    destruct (get s1 k), (get s2 k); reflexivity.
  Qed.

  Lemma mem_sinter s1 s2 k : mem k (sinter s1 s2) = mem k s1 && mem k s2.
  Proof.
    unfold sinter, mem. rewrite get_merge by reflexivity.
    destruct (get s1 k), (get s2 k); reflexivity.
  Qed.

  Lemma get_mdiff {V W} (m1 : smap K V) (m2 : smap K W) k :
    get (mdiff m1 m2) k = if mem k m2 then None else get m1 k.
  Proof.
    unfold mdiff, mem. rewrite get_merge by reflexivity.
    destruct (get m2 k); reflexivity.
  Qed.

  Lemma mem_mdiff {V W} (m1 : smap K V) (m2 : smap K W) k :
    mem k (mdiff m1 m2) = mem k m1 && negb (mem k m2).
  Proof.
    unfold mem at 1. rewrite get_mdiff. unfold mem. destruct (get m2 k), (get m1 k); reflexivity.
  Qed.

  Lemma mem_multiunion l k : mem k (multiunion l) = existsb (mem k) l.
  Proof.
    unfold multiunion.
    assert (H : forall s, mem k (fold_left sunion l s) = mem k s || existsb (mem k) l).
    { induction l as [|s0 l IH]; intros s; simpl; [rewrite orb_false_r; reflexivity|].
      rewrite IH, mem_sunion, orb_assoc; reflexivity. }
    rewrite H; reflexivity.
  Qed.

  Lemma mem_set_of_list l k : mem k (set_of_list l) = existsb (eqb k) l.
  Proof.
    unfold set_of_list.
    assert (H : forall s, mem k (fold_left (fun s k => sadd k s) l s) = mem k s || existsb (eqb k) l).
    { induction l as [|x l IH]; intros s; simpl; [rewrite orb_false_r; reflexivity|].
      rewrite IH, mem_sadd. destruct (mem k s), (eqb k x); reflexivity. }
    rewrite H; reflexivity.
  Qed.

  Lemma existsb_eqb_In (l : list K) k : existsb (eqb k) l = true <-> In k l.
  Proof.
    rewrite existsb_exists; split.
    - intros [y [Hy He]]. apply eqb_eq in He; subst; exact Hy.
    - intros H; exists k; split; [exact H|apply eqb_refl].
  Qed.

  Lemma mem_set_of_list_In l k : mem k (set_of_list l) = true <-> In k l.
  Proof. rewrite mem_set_of_list; apply existsb_eqb_In. Qed.

  Lemma selems_In (s : sset K) k : In k (selems s) <-> mem k s = true.
  Proof. apply keys_mem. Qed.

  Lemma set_of_list_selems (s : sset K) : set_of_list (selems s) = s.
  Proof.
    apply sset_ext; intros k. destruct (mem k s) eqn:E.
    - apply mem_set_of_list_In, selems_In; exact E.
    - destruct (mem k (set_of_list (selems s))) eqn:E2; [|reflexivity].
      apply mem_set_of_list_In, selems_In in E2; congruence.
  Qed.
End SSet.
