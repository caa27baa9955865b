(** * Sort: stable sorting (the model of Python's [sorted] and [list.sort]).

    [R x y] is "x may come before y", a total preorder.  [stable_sort_of R l s]
    is the specification: [s] is ordered and for every element the elements
    equivalent to it appear in [s] as in [l].  It determines [s]. *)
From Verif Require Export Prelude.

Definition equivb {A} (R : A -> A -> bool) (x y : A) : bool := R x y && R y x.

Definition stable_sort_of {A} (R : A -> A -> bool) (l s : list A) : Prop :=
  StronglySorted (fun x y => R x y = true) s /\
  (forall x, filter (equivb R x) s = filter (equivb R x) l).

Fixpoint insert {A} (R : A -> A -> bool) (x : A) (l : list A) : list A :=
  match l with
  | [] => [x]
  | y :: l' => if R x y then x :: l else y :: insert R x l'
  end.

Fixpoint isort {A} (R : A -> A -> bool) (l : list A) : list A :=
  match l with [] => [] | x :: l' => insert R x (isort R l') end.

Section Facts.
  Context {A : Type} (R : A -> A -> bool).
  Hypothesis R_total : forall x y, R x y = true \/ R y x = true.
  Hypothesis R_trans : forall x y z, R x y = true -> R y z = true -> R x z = true.

  Lemma R_refl x : R x x = true.
  Proof. destruct (R_total x x); assumption. Qed.

  Lemma equivb_refl x : equivb R x x = true.
  Proof. unfold equivb; rewrite R_refl; reflexivity. Qed.
  Lemma equivb_sym x y : equivb R x y = equivb R y x.
  Proof. unfold equivb; apply andb_comm. Qed.

  Lemma insert_perm x l : Permutation (insert R x l) (x :: l).
  Proof.
    induction l as [|y l IH]; simpl; [reflexivity|].
    destruct (R x y); [reflexivity|]. rewrite IH. apply perm_swap.
  Qed.
  Lemma isort_perm l : Permutation (isort R l) l.
  Proof. induction l; simpl; [reflexivity|]. rewrite insert_perm. constructor; assumption. Qed.

  Lemma insert_sorted x l :
    StronglySorted (fun a b => R a b = true) l -> StronglySorted (fun a b => R a b = true) (insert R x l).
  Proof.
    induction 1 as [|y l Hs IH Hf]; simpl; [repeat constructor|].
    destruct (R x y) eqn:E.
    - constructor; [constructor; assumption|]. constructor; [exact E|].
      eapply Forall_impl; [|exact Hf]. intros z Hz; eapply R_trans; eassumption.
    - constructor; [exact IH|]. apply Forall_forall. intros z Hz.
      apply (Permutation_in _ (insert_perm x l)) in Hz. destruct Hz as [<-|Hz].
      + destruct (R_total y x); congruence.
      + rewrite Forall_forall in Hf; apply Hf; exact Hz.
  Qed.
  Lemma isort_sorted l : StronglySorted (fun a b => R a b = true) (isort R l).
  Proof. induction l; simpl; [constructor|apply insert_sorted; assumption]. Qed.

  Lemma filter_insert x y l :
    filter (equivb R x) (insert R y l) =
    if equivb R x y then y :: filter (equivb R x) l else filter (equivb R x) l.
  Proof.
    induction l as [|z l IH]; simpl; [reflexivity|].
    destruct (R y z) eqn:E; simpl; [reflexivity|].
    rewrite IH. destruct (equivb R x y) eqn:Exy; [|reflexivity].
    destruct (equivb R x z) eqn:Exz; [|reflexivity].
    exfalso. unfold equivb in *. apply andb_true_iff in Exy as [H1 H2], Exz as [H3 H4].
    rewrite (R_trans y x z H2 H3) in E. discriminate.
  Qed.

  Lemma isort_stable l : stable_sort_of R l (isort R l).
  Proof.
    split; [apply isort_sorted|]. intros x. induction l as [|y l IH]; simpl; [reflexivity|].
    rewrite filter_insert, IH. reflexivity.
  Qed.

  Lemma sorted_unique s1 s2 :
    StronglySorted (fun x y => R x y = true) s1 -> StronglySorted (fun x y => R x y = true) s2 ->
    (forall x, filter (equivb R x) s1 = filter (equivb R x) s2) -> s1 = s2.
  Proof.
    intros H1. revert s2; induction H1 as [|x s1 Hs1 IH Hf1]; intros s2 H2 Hf.
    - destruct s2 as [|y s2]; [reflexivity|]. specialize (Hf y). simpl in Hf.
      rewrite equivb_refl in Hf. discriminate.
    - destruct H2 as [|y s2 Hs2 Hf2].
      { specialize (Hf x). simpl in Hf. rewrite equivb_refl in Hf. discriminate. }
      assert (Hinx : In x (y :: s2)).
      { pose proof (Hf x) as H. simpl in H. rewrite equivb_refl in H.
        assert (Hin : In x (filter (equivb R x) (y :: s2))) by (simpl; rewrite <- H; left; reflexivity).
        apply filter_In in Hin; apply Hin. }
      assert (Hiny : In y (x :: s1)).
      { pose proof (Hf y) as H. simpl in H. rewrite equivb_refl in H.
        assert (Hin : In y (filter (equivb R y) (x :: s1))) by (simpl; rewrite H; left; reflexivity).
        apply filter_In in Hin; apply Hin. }
      assert (Hyx : R y x = true).
      { destruct Hinx as [<-|Hin]; [apply R_refl|]. rewrite Forall_forall in Hf2; apply Hf2; exact Hin. }
      assert (Hxy : R x y = true).
      { destruct Hiny as [<-|Hin]; [apply R_refl|]. rewrite Forall_forall in Hf1; apply Hf1; exact Hin. }
      assert (Exy : equivb R x y = true) by (unfold equivb; rewrite Hxy, Hyx; reflexivity).
      pose proof (Hf x) as H. simpl in H. rewrite equivb_refl, Exy in H. injection H as <- _.
      f_equal. apply IH; [exact Hs2|]. intros z. specialize (Hf z). simpl in Hf.
      destruct (equivb R z x); [injection Hf as Hf|]; exact Hf.
  Qed.

  Lemma stable_sort_unique l s1 s2 : stable_sort_of R l s1 -> stable_sort_of R l s2 -> s1 = s2.
  Proof.
    intros [H1 F1] [H2 F2]. apply sorted_unique; try assumption.
    intros x; rewrite F1, F2; reflexivity.
  Qed.

  Lemma stable_sort_isort l s : stable_sort_of R l s <-> s = isort R l.
  Proof.
    split; [intros H; apply (stable_sort_unique l); [exact H|apply isort_stable]|intros ->; apply isort_stable].
  Qed.

  Lemma stable_sort_perm l s : stable_sort_of R l s -> Permutation s l.
  Proof. intros H. apply stable_sort_isort in H as ->. apply isort_perm. Qed.

  Lemma isort_sorted_id l : StronglySorted (fun x y => R x y = true) l -> isort R l = l.
  Proof. intros H. symmetry. apply stable_sort_isort. split; [exact H|reflexivity]. Qed.

  (** Inserting at the end of the input: after everything not strictly larger. *)
  Lemma isort_snoc l x :
    isort R (l ++ [x]) = filter (fun y => R y x) (isort R l) ++ x :: filter (fun y => negb (R y x)) (isort R l).
  Proof.
    symmetry. apply stable_sort_isort. split.
    - pose proof (isort_sorted l) as Hs. induction Hs as [|y s Hs IH Hf]; simpl; [repeat constructor|].
      destruct (R y x) eqn:E; simpl.
      + constructor; [exact IH|]. apply Forall_app; split; [|constructor].
        * apply Forall_forall; intros z Hz; apply filter_In in Hz as [Hz _].
          rewrite Forall_forall in Hf; apply Hf; exact Hz.
        * exact E.
        * apply Forall_forall; intros z Hz; apply filter_In in Hz as [Hz _].
          rewrite Forall_forall in Hf; apply Hf; exact Hz.
      + assert (Hnil : filter (fun y => R y x) s = []).
        { clear IH Hs. induction Hf as [|z s Hz Hf IH]; simpl; [reflexivity|].
          destruct (R z x) eqn:Ez; [|exact IH]. rewrite (R_trans y z x Hz Ez) in E. discriminate. }
        rewrite Hnil in *. simpl in *.
        inversion IH as [|? ? IH1 IH2]; subst.
        assert (Hxy : R x y = true) by (destruct (R_total x y); congruence).
        constructor.
        * constructor; [exact IH1|]. apply Forall_forall; intros z Hz; apply filter_In in Hz as [Hz _].
          rewrite Forall_forall in Hf; apply Hf; exact Hz.
        * constructor; assumption.
    - intros z. rewrite filter_app. simpl. rewrite filter_app. simpl.
      rewrite <- (proj2 (isort_stable l) z).
      generalize (isort_sorted l). intros Hs.
      destruct (equivb R z x) eqn:Ezx.
      + (* equivalents of x all satisfy R y x *)
        unfold equivb in Ezx; apply andb_true_iff in Ezx as [Hzx Hxz].
        assert (H1 : filter (equivb R z) (filter (fun y => R y x) (isort R l)) = filter (equivb R z) (isort R l)).
        { clear Hs. induction (isort R l) as [|y s IH]; simpl; [reflexivity|].
          destruct (R y x) eqn:E; simpl; [rewrite IH; reflexivity|].
          destruct (equivb R z y) eqn:F; [|exact IH]. exfalso. unfold equivb in F.
          apply andb_true_iff in F as [_ F]. rewrite (R_trans y z x F Hzx) in E; discriminate. }
        assert (H2 : filter (equivb R z) (filter (fun y => negb (R y x)) (isort R l)) = []).
        { clear Hs H1. induction (isort R l) as [|y s IH]; simpl; [reflexivity|].
          destruct (R y x) eqn:E; simpl; [exact IH|].
          destruct (equivb R z y) eqn:F; [|exact IH]. exfalso. unfold equivb in F.
          apply andb_true_iff in F as [_ F]. rewrite (R_trans y z x F Hzx) in E; discriminate. }
        rewrite H1, H2. reflexivity.
      + rewrite app_nil_r. rewrite <- filter_app.
        f_equal. induction Hs as [|y s Hs IH Hf]; simpl; [reflexivity|].
        destruct (R y x) eqn:E; simpl; [rewrite IH; reflexivity|].
        assert (Hnil : filter (fun y => R y x) s = []).
        { clear IH Hs. induction Hf as [|w s Hw Hf IH]; simpl; [reflexivity|].
          destruct (R w x) eqn:Ew; [|exact IH]. rewrite (R_trans y w x Hw Ew) in E. discriminate. }
        rewrite Hnil in *. simpl in *. rewrite IH. reflexivity.
  Qed.
End Facts.

(** Sorting by a key: map commutes with sorting. *)
Lemma insert_map {A B} (f : A -> B) (R : B -> B -> bool) x l :
  map f (insert (fun a b => R (f a) (f b)) x l) = insert R (f x) (map f l).
Proof. induction l as [|y l IH]; simpl; [reflexivity|]. destruct (R (f x) (f y)); simpl; congruence. Qed.
Lemma isort_map {A B} (f : A -> B) (R : B -> B -> bool) l :
  map f (isort (fun a b => R (f a) (f b)) l) = isort R (map f l).
Proof. induction l as [|x l IH]; simpl; [reflexivity|]. rewrite insert_map, IH. reflexivity. Qed.
Lemma insert_ext {A} (R R' : A -> A -> bool) x l :
  (forall y, In y l -> R x y = R' x y) -> insert R x l = insert R' x l.
Proof.
  induction l as [|y l IH]; simpl; intros H; [reflexivity|].
  rewrite (H y (or_introl eq_refl)), IH; [reflexivity|]. intros z Hz; apply H; right; exact Hz.
Qed.

(** Insertion after the elements not larger, and keeping the first [n]. *)
Definition ins_after {A} (R : A -> A -> bool) (l : list A) (x : A) : list A :=
  filter (fun y => R y x) l ++ x :: filter (fun y => negb (R y x)) l.

Lemma filter_all {A} (f : A -> bool) l : (forall x, In x l -> f x = true) -> filter f l = l.
Proof.
  induction l as [|x l IH]; intros H; cbn; [reflexivity|].
  rewrite (H x) by (left; reflexivity). f_equal. apply IH. intros y Hy; apply H; right; exact Hy.
Qed.
Lemma filter_none {A} (f : A -> bool) l : (forall x, In x l -> f x = false) -> filter f l = [].
Proof.
  induction l as [|x l IH]; intros H; cbn; [reflexivity|].
  rewrite (H x) by (left; reflexivity). apply IH. intros y Hy; apply H; right; exact Hy.
Qed.
Lemma ins_after_length {A} (R : A -> A -> bool) l x : length (ins_after R l x) = S (length l).
Proof.
  unfold ins_after. rewrite app_length. cbn. induction l as [|y l IH]; cbn; [reflexivity|].
  destruct (R y x); cbn; lia.
Qed.
Lemma StronglySorted_app_inv {A} (R : A -> A -> Prop) l1 l2 :
  StronglySorted R (l1 ++ l2) -> StronglySorted R l1 /\ StronglySorted R l2 /\
  forall x y, In x l1 -> In y l2 -> R x y.
Proof.
  induction l1 as [|a l1 IH]; cbn; intros H.
  - splits; [constructor|exact H|intros x y []].
  - inversion H as [|? ? H1 H2]; subst. destruct (IH H1) as (I1 & I2 & I3).
    rewrite Forall_app in H2. destruct H2 as [H2 H3]. splits; [constructor; assumption|exact I2|].
    intros x y [<-|Hx] Hy; [|apply I3; assumption]. rewrite Forall_forall in H3. apply H3, Hy.
Qed.
Lemma StronglySorted_app {A} (R : A -> A -> Prop) l1 l2 :
  StronglySorted R l1 -> StronglySorted R l2 -> (forall x y, In x l1 -> In y l2 -> R x y) ->
  StronglySorted R (l1 ++ l2).
Proof.
  induction 1 as [|a l1 H1 IH Hf]; cbn; intros H2 H3; [exact H2|].
  constructor; [apply IH; [exact H2|]; intros x y Hx Hy; apply H3; [right|]; assumption|].
  apply Forall_app. split; [exact Hf|]. apply Forall_forall. intros y Hy. apply H3; [left; reflexivity|exact Hy].
Qed.
Lemma StronglySorted_filter {A} (R : A -> A -> Prop) (f : A -> bool) l :
  StronglySorted R l -> StronglySorted R (filter f l).
Proof.
  induction 1 as [|a l H1 IH Hf]; cbn; [constructor|]. destruct (f a); [|exact IH].
  constructor; [exact IH|]. apply Forall_forall. intros y Hy. apply filter_In in Hy as [Hy _].
  rewrite Forall_forall in Hf. apply Hf, Hy.
Qed.
Lemma StronglySorted_impl {A} (R R' : A -> A -> Prop) l :
  (forall x y, In x l -> In y l -> R x y -> R' x y) -> StronglySorted R l -> StronglySorted R' l.
Proof.
  intros HR. induction 1 as [|a l H1 IH Hf]; constructor.
  - apply IH. intros x y Hx Hy; apply HR; right; assumption.
  - apply Forall_forall. intros y Hy. apply HR; [left; reflexivity|right; exact Hy|].
    rewrite Forall_forall in Hf. apply Hf, Hy.
Qed.
Lemma StronglySorted_map {A B} (f : A -> B) (R : B -> B -> Prop) l :
  StronglySorted (fun x y => R (f x) (f y)) l -> StronglySorted R (map f l).
Proof.
  induction 1 as [|a l H1 IH Hf]; cbn; constructor; [exact IH|].
  apply Forall_map. exact Hf.
Qed.
Lemma StronglySorted_members {A} (R : A -> A -> Prop) l1 l2 :
  (forall x y, R x y -> R y x -> False) ->
  StronglySorted R l1 -> StronglySorted R l2 -> (forall x, In x l1 <-> In x l2) -> l1 = l2.
Proof.
  intros Hasym H1. revert l2; induction H1 as [|a l1 H1 IH Hf1]; intros l2 H2 Hin.
  - destruct l2 as [|b l2]; [reflexivity|]. destruct (proj2 (Hin b)); left; reflexivity.
  - destruct H2 as [|b l2 H2 Hf2]; [destruct (proj1 (Hin a)); left; reflexivity|].
    rewrite Forall_forall in Hf1, Hf2.
    assert (a = b) as <-.
    { destruct (proj1 (Hin a) (or_introl eq_refl)) as [->|Ha]; [reflexivity|].
      destruct (proj2 (Hin b) (or_introl eq_refl)) as [->|Hb]; [reflexivity|].
      exfalso. eapply Hasym; [apply Hf1, Hb|apply Hf2, Ha]. }
    f_equal. apply IH; [exact H2|]. intros x. split; intros Hx.
    + destruct (proj1 (Hin x) (or_intror Hx)) as [<-|Hx']; [|exact Hx'].
      exfalso. pose proof (Hf1 _ Hx) as Hr. eapply Hasym; exact Hr.
    + destruct (proj2 (Hin x) (or_intror Hx)) as [<-|Hx']; [|exact Hx'].
      exfalso. pose proof (Hf2 _ Hx) as Hr. eapply Hasym; exact Hr.
Qed.

Section FirstN.
  Context {A : Type} (R : A -> A -> bool).
  Hypothesis R_total : forall x y, R x y = true \/ R y x = true.
  Hypothesis R_trans : forall x y z, R x y = true -> R y z = true -> R x z = true.

  Lemma firstn_ins_after n s x : StronglySorted (fun a b => R a b = true) s ->
    firstn n (ins_after R s x) = firstn n (ins_after R (firstn n s) x).
  Proof.
    intros Hs. rewrite <- (firstn_skipn n s) in Hs. apply StronglySorted_app_inv in Hs as (_ & _ & Hc).
    destruct (Nat.le_gt_cases (length s) n) as [Hl|Hl]; [rewrite (firstn_all2 s) by exact Hl; reflexivity|].
    destruct (forallb (fun y => R y x) (firstn n s)) eqn:E.
    - rewrite forallb_forall in E.
      unfold ins_after at 2. rewrite (filter_all _ (firstn n s)) by exact E.
      unfold ins_after. rewrite <- (firstn_skipn n s) at 1. rewrite filter_app, (filter_all _ (firstn n s)) by exact E.
      assert (Hn : length (firstn n s) = n) by (apply firstn_length_le; lia).
      rewrite <- app_assoc. rewrite !firstn_app, Hn, Nat.sub_diag. cbn [firstn]. reflexivity.
    - assert (Hex : exists y, In y (firstn n s) /\ R y x = false).
      { clear -E. induction (firstn n s) as [|y l IH]; [discriminate|]. cbn in E.
        destruct (R y x) eqn:Ey; [|exists y; split; [left; reflexivity|exact Ey]].
        destruct (IH E) as [z [Hz1 Hz2]]. exists z; split; [right|]; assumption. }
      destruct Hex as [y [Hy Hyx]].
      assert (Hbig : forall z, In z (skipn n s) -> R z x = false).
      { intros z Hz. destruct (R z x) eqn:Ez; [|reflexivity].
        rewrite (R_trans y z x (Hc y z Hy Hz) Ez) in Hyx. discriminate. }
      assert (Heq : ins_after R s x = ins_after R (firstn n s) x ++ skipn n s).
      { unfold ins_after. rewrite <- (firstn_skipn n s) at 1 2. rewrite !filter_app.
        rewrite (filter_none _ (skipn n s)) by exact Hbig.
        rewrite (filter_all (fun y => negb (R y x)) (skipn n s)) by (intros z Hz; rewrite Hbig by exact Hz; reflexivity).
        rewrite app_nil_r, <- app_assoc. reflexivity. }
      rewrite Heq, firstn_app, ins_after_length.
      rewrite firstn_length_le by lia. replace (n - S n)%nat with 0%nat by lia. cbn [firstn].
      apply app_nil_r.
  Qed.

  Lemma firstn_isort_snoc n l x :
    firstn n (isort R (l ++ [x])) = firstn n (ins_after R (firstn n (isort R l)) x).
  Proof.
    rewrite isort_snoc by assumption. apply firstn_ins_after, isort_sorted; assumption.
  Qed.
End FirstN.

Lemma isort_ext_sorted {A} (P : A -> A -> Prop) (R R' : A -> A -> bool) l :
  StronglySorted P l -> (forall x y, P x y -> R x y = R' x y) -> isort R l = isort R' l.
Proof.
  intros Hs HR. induction Hs as [|x l Hs IH Hf]; cbn; [reflexivity|]. rewrite IH.
  apply insert_ext. intros y Hy. apply HR. rewrite Forall_forall in Hf. apply Hf.
  apply (Permutation_in _ (isort_perm R' l)), Hy.
Qed.
