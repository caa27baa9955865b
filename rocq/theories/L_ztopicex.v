(** * Examples of concurrent transactions on a topic index *)
From Verif Require Import Prelude S_ztopic L_ztopic L_ztserial SMap Ord.

(** Filters, expressions and objects are numbers; an object satisfies the expression it equals. *)
Definition zeval (e d c : Z) : evres := if Z.eqb e c then Truthy else Falsy.
Definition zfilter (i : Z) : filt Z Z := filt_new true i i.
Definition zt_base : list (zop Z Z Z) := [ZAdd (zfilter 1); ZAdd (zfilter 2); ZIndex 1 1; ZIndex 2 1; ZIndex 3 2].
Definition zt_ops : list (zop Z Z Z) := [ZIndex 5 1; ZUnindex 3; ZIndex 6 2].
Definition zt_two : list (nat * list (zop Z Z Z)) := [(0%nat, zt_base); (0%nat, [ZIndex 4 1; ZUnindex 2])].
Definition zt_show (st : ztopic Z Z) : list (Z * list Z) := map (fun p => (fst p, selems (f_ids (snd p)))) (elts (view st)).
Definition hd_show (sch : list (nat * list (zop Z Z Z))) : option (list (Z * list Z)) :=
  match tz_run zeval sch with st :: _ => Some (zt_show st) | [] => None end.
Definition zt_try (i : nat) (ops : list (zop Z Z Z)) : bool := is_some (tz_commit zeval (tz_run zeval zt_two) i ops).

Lemma zt_used : length (tz_run zeval (zt_two ++ [(1%nat, zt_ops)])) = 4%nat /\
  hd_show zt_two = Some [(1, [1; 4]); (2, [3])] /\ hd_show (zt_two ++ [(1%nat, zt_ops)]) = Some [(1, [1; 4; 5]); (2, [6])].
Proof. vm_compute. auto. Qed.

Lemma get_show (st : ztopic Z Z) l : zt_show st = l -> forall i, (forall d, has st i d = existsb (Z.eqb d) (concat (map snd (filter (fun p => Z.eqb i (fst p)) l)))).
Proof.
  intros <- i d. unfold has, zt_show.
  assert (G : forall L : list (Z * filt Z Z), NoDup (map fst L) ->
    existsb (Z.eqb d) (concat (map snd (filter (fun p => Z.eqb i (fst p)) (map (fun p => (fst p, selems (f_ids (snd p)))) L)))) = true <->
    exists f, In (i, f) L /\ mem d (f_ids f) = true).
  { induction L as [|[j f] L IH]; intros Hnd; cbn [map filter fst snd].
    - split; [discriminate|intros (f & [] & _)].
    - inversion Hnd as [|? ? Hj Hnd']; subst. destruct (Z.eqb_spec i j) as [->|N]; cbn [map concat snd].
      + rewrite existsb_app, Bool.orb_true_iff, IH by exact Hnd'. split.
        * intros [H|(g & Hg & Hm)].
          -- exists f. split; [left; reflexivity|]. apply existsb_exists in H as (k & Hk & Ek). apply Z.eqb_eq in Ek as <-. apply selems_In, Hk.
          -- exists g. split; [right; exact Hg|exact Hm].
        * intros (g & [[= ->]|Hg] & Hm); [left|].
          -- apply existsb_exists. exists d. split; [apply selems_In, Hm|apply Z.eqb_refl].
          -- right. eauto.
      + rewrite IH by exact Hnd'. split; intros (g & Hg & Hm); exists g; (split; [|exact Hm]).
        * right; exact Hg.
        * destruct Hg as [[= -> _]|Hg]; [congruence|exact Hg]. }
  specialize (G (elts (view st)) (keys_NoDup _)). apply Bool.eq_true_iff_eq. rewrite G. split.
  - destruct (get (view st) i) as [f|] eqn:Ef; [|discriminate]. intros Hm. exists f. split; [apply get_In, Ef|exact Hm].
  - intros (f & Hf & Hm). apply get_In in Hf. rewrite Hf. exact Hm.
Qed.

Definition zt_v (sch : list (nat * list (zop Z Z Z))) (n : nat) : ztopic Z Z :=
  match nth_error (tz_run zeval sch) n with Some v => v | None => tz_new end.
Lemma zt_v_nth sch n : (n <? length (tz_run zeval sch))%nat = true -> nth_error (tz_run zeval sch) n = Some (zt_v sch n).
Proof.
  intros H. apply PeanoNat.Nat.ltb_lt in H. unfold zt_v. destruct (nth_error (tz_run zeval sch) n) eqn:E; [reflexivity|].
  apply nth_error_None in E. lia.
Qed.
Lemma zt_v_hd sch : (0 <? length (tz_run zeval sch))%nat = true -> hd_error (tz_run zeval sch) = Some (zt_v sch 0).
Proof. intros H. rewrite <- (zt_v_nth sch 0 H). destruct (tz_run zeval sch); reflexivity. Qed.

(** The hypotheses of C83_serial: another transaction has changed both filters meanwhile. *)
Lemma zt_serial_used : exists st cur snap,
  tz_commit zeval (tz_run zeval zt_two) 1 zt_ops = Some st /\
  hd_error (tz_run zeval zt_two) = Some cur /\ nth_error (tz_run zeval zt_two) 1 = Some snap /\ cleared_since snap cur = false /\
  (forall j, filter_object cur j = filter_object snap j) /\ documents_only zt_ops /\
  (forall d j, In d (docs_of zt_ops) -> has cur j d = has snap j d) /\
  has cur 1 4 <> has snap 1 4 /\ has cur 1 2 <> has snap 1 2 /\ has st 1 4 = true /\ has st 1 5 = true.
Proof.
  assert (Hs : zt_try 1 zt_ops = true) by (vm_compute; reflexivity). unfold zt_try in Hs.
  assert (Hv : match tz_commit zeval (tz_run zeval zt_two) 1 zt_ops with Some st => has st 1 4 && has st 1 5 | None => false end = true) by (vm_compute; reflexivity).
  destruct (tz_commit zeval (tz_run zeval zt_two) 1 zt_ops) as [st|]; [|discriminate]. clear Hs. apply andb_true_iff in Hv as (Hv1 & Hv2).
  exists st, (zt_v zt_two 0), (zt_v zt_two 1). split; [reflexivity|]. split; [apply zt_v_hd; vm_compute; reflexivity|].
  split; [apply zt_v_nth; vm_compute; reflexivity|]. split; [vm_compute; reflexivity|].
  assert (Ef : tz_filters (zt_v zt_two 0) = tz_filters (zt_v zt_two 1)) by (apply elts_inj; vm_compute; reflexivity).
  assert (S0 : zt_show (zt_v zt_two 0) = [(1, [1; 4]); (2, [3])]) by (vm_compute; reflexivity).
  assert (S1 : zt_show (zt_v zt_two 1) = [(1, [1; 2]); (2, [3])]) by (vm_compute; reflexivity).
  split; [intros j; unfold filter_object; rewrite Ef; reflexivity|].
  split; [intros o [<-|[<-|[<-|[]]]]; exact Logic.I|]. split.
  { intros d j Hd. rewrite (get_show _ _ S0), (get_show _ _ S1). cbn in Hd.
    cbn [filter fst snd]. destruct (Z.eqb_spec j 1), (Z.eqb_spec j 2); subst; destruct Hd as [<-|[<-|[<-|[]]]]; reflexivity. }
  rewrite !(get_show _ _ S0), !(get_show _ _ S1). cbn. repeat split; try discriminate; assumption.
Qed.

(** Two transactions that commit although the outcome is that of neither order. *)
Definition zt_a : list (zop Z Z Z) := [ZUnindex 7; ZIndex 7 1].
Definition zt_b : list (zop Z Z Z) := [ZUnindex 7; ZIndex 7 2].
Lemma zt_skew : hd_show [(0%nat, zt_base); (0%nat, zt_a); (1%nat, zt_b)] = Some [(1, [1; 2; 7]); (2, [3; 7])] /\
  length (tz_run zeval [(0%nat, zt_base); (0%nat, zt_a); (1%nat, zt_b)]) = 4%nat /\
  hd_show [(0%nat, zt_base); (0%nat, zt_a); (0%nat, zt_b)] = Some [(1, [1; 2]); (2, [3; 7])] /\
  hd_show [(0%nat, zt_base); (0%nat, zt_b); (0%nat, zt_a)] = Some [(1, [1; 2; 7]); (2, [3])].
Proof. vm_compute. auto. Qed.
Lemma zt_skew_views : exists (ev : Z -> Z -> Z -> evres) (base ta tb : list (zop Z Z Z)) st v1 v2 v3 i j d,
  tz_run ev [(0%nat, base); (0%nat, ta); (1%nat, tb)] = [st; v1; v2; v3] /\
  has st i d = true /\ has st j d = true /\
  (forall st', hd_error (tz_run ev [(0%nat, base); (0%nat, ta); (0%nat, tb)]) = Some st' -> has st' i d = false) /\
  (forall st', hd_error (tz_run ev [(0%nat, base); (0%nat, tb); (0%nat, ta)]) = Some st' -> has st' j d = false).
Proof.
  exists zeval, zt_base, zt_a, zt_b. destruct zt_skew as (H1 & H2 & H3 & H4).
  unfold hd_show in H1, H3, H4.
  destruct (tz_run zeval [(0%nat, zt_base); (0%nat, zt_a); (1%nat, zt_b)]) as [|st [|v1 [|v2 [|v3 [|? ?]]]]]; try discriminate H2.
  exists st, v1, v2, v3, 1, 2, 7. injection H1 as H1. split; [reflexivity|]. rewrite !(get_show _ _ H1). split; [reflexivity|]. split; [reflexivity|].
  destruct (tz_run zeval [(0%nat, zt_base); (0%nat, zt_a); (0%nat, zt_b)]) as [|s1 ?]; [discriminate|].
  destruct (tz_run zeval [(0%nat, zt_base); (0%nat, zt_b); (0%nat, zt_a)]) as [|s2 ?]; [discriminate|].
  injection H3 as H3. injection H4 as H4. split; intros st' [= <-]; [rewrite (get_show _ _ H3)|rewrite (get_show _ _ H4)]; reflexivity.
Qed.
Lemma zt_tries : zt_try 1 zt_ops = true /\ zt_try 1 [ZUnindex 1] = true /\
  zt_try 1 [ZUnindex 2; ZIndex 5 1] = false /\ zt_try 1 [ZIndex 4 1] = false /\ zt_try 1 [ZUnindex 1; ZUnindex 2] = false /\
  zt_try 1 [ZAdd (zfilter 3); ZIndex 8 3] = true /\ zt_try 1 [ZDel 1] = true /\ zt_try 1 [ZClear] = true.
Proof. vm_compute. repeat split. Qed.
