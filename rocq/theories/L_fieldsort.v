(** * Lemmas about field index sorting *)
From Verif Require Import S_field M_field L_field SMap Ord.

Section L.
  Context {T : Type} `{OT : Ord T}.
  Notation pyval := (pyval T).
  Notation fop := (fop T).
  Notation fstate := (fstate T).
  Implicit Types (m : smap Z pyval) (v w : pyval) (d : Z) (st : fstate).

  Lemma same_kind_sym v w : same_kind v w = same_kind w v.
  Proof. destruct v, w; reflexivity. Qed.
  Lemma same_kind_refl v : same_kind v v = true.
  Proof. destruct v; reflexivity. Qed.
  Lemma same_kind_trans u v w : same_kind u v = true -> same_kind v w = true -> same_kind u w = true.
  Proof. destruct u, v, w; cbn; congruence. Qed.

  (** ** [truncate] and [yield_limit] *)
  Lemma yield_limit_from k l n : 0 <= n < k -> yield_limit (Some k) n l = firstn (Z.to_nat (k - n)) l.
  Proof.
    revert n; induction l as [|d l IH]; intros n Hn; cbn [yield_limit].
    - rewrite firstn_nil. reflexivity.
    - replace (Z.to_nat (k - n)) with (S (Z.to_nat (k - (n + 1)))) by lia. cbn [firstn]. f_equal.
      destruct (k =? 0) eqn:E0; [lia|]. cbn [negb andb]. destruct (n + 1 >=? k) eqn:E.
      + replace (Z.to_nat (k - (n + 1))) with 0%nat by lia. reflexivity.
      + apply IH. lia.
  Qed.
  Lemma yield_none n l : yield_limit None n l = l.
  Proof. revert n; induction l as [|d l IH]; intros n; cbn; [reflexivity|]. f_equal. apply IH. Qed.
  Lemma yield_truncate limit l : limit_ok limit -> yield_limit limit 0 l = truncate limit l.
  Proof.
    destruct limit as [k|]; cbn; intros H; [|apply yield_none].
    rewrite yield_limit_from by lia. replace (k - 0) with k by lia. reflexivity.
  Qed.

  (** ** Pairs that must be comparable *)
  Lemma all_pairs_false_iff {A} (f : A -> A -> bool) l :
    all_pairs f l = false <-> exists l1 a l2 b l3, l = l1 ++ a :: l2 ++ b :: l3 /\ f a b = false.
  Proof.
    induction l as [|x l IH]; cbn.
    - split; [discriminate|]. intros ([|y0 l0] & a & l2 & b & l3 & E & _); discriminate.
    - rewrite andb_false_iff, IH. split.
      + intros [H|(l1 & a & l2 & b & l3 & -> & H)].
        * assert (Hex : exists y, In y l /\ f x y = false).
          { clear IH. induction l as [|y l IH]; [discriminate|]. cbn in H. destruct (f x y) eqn:E.
            - destruct (IH H) as [z [Hz1 Hz2]]. exists z. split; [right|]; assumption.
            - exists y. split; [left; reflexivity|exact E]. }
          destruct Hex as [y [Hy Hf]]. apply in_split in Hy as (l2 & l3 & ->).
          exists [], x, l2, y, l3. split; [reflexivity|exact Hf].
        * exists (x :: l1), a, l2, b, l3. split; [reflexivity|exact H].
      + intros ([|y l1] & a & l2 & b & l3 & E & H); injection E as -> ->.
        * left. rewrite forallb_app. cbn. rewrite H, andb_false_r. reflexivity.
        * right. exists l1, a, l2, b, l3. auto.
  Qed.
  Lemma all_pairs_In {A} (f : A -> A -> bool) l :
    (forall x, f x x = true) -> (forall x y, f x y = f y x) ->
    (all_pairs f l = true <-> forall a b, In a l -> In b l -> f a b = true).
  Proof.
    intros Hr Hs. induction l as [|x l IH]; cbn.
    - split; [intros _ a b []|reflexivity].
    - rewrite andb_true_iff, forallb_forall, IH. split.
      + intros [H1 H2] a b [<-|Ha] [<-|Hb]; auto. rewrite Hs; auto.
      + intros H. split; intros; apply H; auto.
  Qed.
  Lemma vd_ok_pairs (l : list (pyval * Z)) :
    all_pairs vd_ok l = true <-> forall p q, In p l -> In q l -> same_kind (fst p) (fst q) = true.
  Proof.
    apply all_pairs_In; intros; unfold vd_ok, tuple_ok; [apply same_kind_refl|apply same_kind_sym].
  Qed.

  (** ** n smallest *)
  Notation vleb := (@leb (pyval * Z) _).
  Lemma last_of_snoc {A} (l : list A) x : last_of (l ++ [x]) = Ok x.
  Proof. unfold last_of. rewrite rev_app_distr. reflexivity. Qed.
  Lemma last_of_In {A} (l : list A) x : last_of l = Ok x -> In x l.
  Proof.
    destruct (snoc_cases l) as [->|[l' [y ->]]]; [discriminate|]. rewrite last_of_snoc. intros [= ->].
    apply in_or_app; right; left; reflexivity.
  Qed.
  Lemma last_of_ok {A} (l : list A) : l <> [] -> exists x, last_of l = Ok x.
  Proof.
    destruct (snoc_cases l) as [->|[l' [y ->]]]; [contradiction|]. intros _. exists y. apply last_of_snoc.
  Qed.
  Lemma sorted_last {A} (R : A -> A -> bool) l x : (forall y, R y y = true) ->
    StronglySorted (fun a b => R a b = true) l -> last_of l = Ok x -> forall y, In y l -> R y x = true.
  Proof.
    intros Hr Hs Hl y Hy. destruct (snoc_cases l) as [->|[l' [z ->]]]; [discriminate|].
    rewrite last_of_snoc in Hl. injection Hl as ->. apply StronglySorted_app_inv in Hs as (_ & _ & H).
    apply in_app_iff in Hy as [Hy|[<-|[]]]; [|apply Hr]. apply H; [exact Hy|left; reflexivity].
  Qed.
  Lemma removelast_firstn_len' {A} (l : list A) n : length l = S n -> removelast l = firstn n l.
  Proof. intros H. rewrite removelast_firstn_len, H. reflexivity. Qed.

  Lemma nsmallest_loop_spec it : forall (n : nat) seen result los,
    (1 <= n <= length seen)%nat -> result = firstn n (isort vleb seen) -> last_of result = Ok los ->
    all_pairs vd_ok seen = true ->
    nsmallest_loop result los it =
      if all_pairs vd_ok (seen ++ it) then Ok (firstn n (isort vleb (seen ++ it))) else Raise TypeError.
  Proof.
    induction it as [|x it IH]; intros n seen result los Hn Hr Hl Hok; cbn [nsmallest_loop].
    - rewrite app_nil_r, Hok, Hr. reflexivity.
    - assert (Hlen : length result = n).
      { rewrite Hr. apply firstn_length_le. rewrite (Permutation_length (isort_perm vleb seen)). lia. }
      assert (Hsub : forall p, In p result -> In p seen).
      { intros p Hp. rewrite Hr in Hp. apply (Permutation_in _ (isort_perm vleb seen)).
        rewrite <- (firstn_skipn n). apply in_or_app; left; exact Hp. }
      assert (Hsort : StronglySorted (fun a b => vleb a b = true) result).
      { rewrite Hr. pose proof (isort_sorted vleb leb_total leb_trans seen) as Hs.
        rewrite <- (firstn_skipn n) in Hs. apply StronglySorted_app_inv in Hs. apply Hs. }
      pose proof (Hsub _ (last_of_In _ _ Hl)) as Hlos.
      unfold vd_le. destruct (vd_ok los x) eqn:Ex; cbn [bind].
      2:{ destruct (all_pairs vd_ok (seen ++ x :: it)) eqn:E; [|reflexivity].
          rewrite vd_ok_pairs in E. exfalso.
          assert (vd_ok los x = true); [|congruence].
          apply E; apply in_or_app; [left; exact Hlos|right; left; reflexivity]. }
      rewrite vd_ok_pairs in Hok.
      assert (Hx : forall p, In p seen -> same_kind (fst x) (fst p) = true).
      { intros p Hp. rewrite same_kind_sym. eapply same_kind_trans; [apply Hok; [exact Hp|exact Hlos]|exact Ex]. }
      assert (Hok' : all_pairs vd_ok (seen ++ [x]) = true).
      { apply vd_ok_pairs. intros p q Hp Hq. apply in_app_iff in Hp as [Hp|[<-|[]]], Hq as [Hq|[<-|[]]]; auto.
        - rewrite same_kind_sym; auto.
        - apply same_kind_refl. }
      change (seen ++ x :: it) with (seen ++ [x] ++ it). rewrite app_assoc.
      pose proof (firstn_isort_snoc vleb leb_total leb_trans n seen x) as Hstep. rewrite <- Hr in Hstep.
      destruct (vleb los x) eqn:Ele.
      + apply IH; [rewrite app_length; lia| |exact Hl|exact Hok']. rewrite Hstep. unfold ins_after.
        rewrite filter_all.
        * rewrite firstn_app, Hlen, Nat.sub_diag, firstn_all2 by lia. cbn. symmetry; apply app_nil_r.
        * intros p Hp. eapply leb_trans; [|exact Ele].
          eapply sorted_last; [intros y; destruct (leb_total y y); assumption|exact Hsort|exact Hl|exact Hp].
      + unfold insort. assert (Hfa : forallb (vd_ok x) result = true).
        { apply forallb_forall. intros p Hp. apply Hx, Hsub, Hp. }
        rewrite Hfa. cbn [bind]. fold (ins_after vleb result x).
        pose proof (ins_after_length vleb result x) as Hil. rewrite Hlen in Hil.
        rewrite (removelast_firstn_len' _ n Hil), <- Hstep.
        destruct (last_of_ok (firstn n (isort vleb (seen ++ [x])))) as [los' Hlos'].
        { intros E. assert (Hz : length (firstn n (isort vleb (seen ++ [x]))) = 0%nat) by (rewrite E; reflexivity).
          rewrite firstn_length_le in Hz; [lia|]. rewrite (Permutation_length (isort_perm vleb _)), app_length. lia. }
        rewrite Hlos'. cbn [bind]. apply IH; [rewrite app_length; lia|reflexivity|exact Hlos'|exact Hok'].
  Qed.

  Lemma nsmallest_spec limit it : limit_ok limit ->
    nsmallest limit it =
      if all_pairs vd_ok it then Ok (truncate limit (map snd (isort vleb it))) else Raise TypeError.
  Proof.
    intros Hlim. unfold nsmallest. set (n := match limit with Some k => Z.to_nat k | None => length it end).
    assert (Htr : truncate limit (map snd (isort vleb it)) = map snd (firstn n (isort vleb it))).
    { unfold n. destruct limit as [k|]; cbn [truncate]; [apply firstn_map|].
      rewrite firstn_all2; [reflexivity|]. rewrite (Permutation_length (isort_perm vleb it)). lia. }
    rewrite Htr. unfold py_sorted. destruct (all_pairs vd_ok (firstn n it)) eqn:E1; cbn [bind].
    2:{ destruct (all_pairs vd_ok it) eqn:E2; [|reflexivity]. rewrite vd_ok_pairs in E2.
        assert (all_pairs vd_ok (firstn n it) = true); [|congruence]. apply vd_ok_pairs.
        intros p q Hp Hq. apply E2; rewrite <- (firstn_skipn n it); apply in_or_app; left; assumption. }
    destruct (isort vleb (firstn n it)) as [|p0 s0] eqn:Es.
    - assert (Hnil : firstn n it = []).
      { apply Permutation_nil. rewrite <- Es. apply isort_perm. }
      destruct it as [|p it]; [cbn; rewrite firstn_nil; reflexivity|].
      exfalso. unfold n in Hnil. destruct limit as [k|]; cbn in Hlim.
      + replace (Z.to_nat k) with (S (Z.to_nat (k - 1))) in Hnil by lia. discriminate.
      + discriminate.
    - rewrite <- Es. destruct (last_of_ok (isort vleb (firstn n it))) as [los Hlos]; [rewrite Es; discriminate|].
      rewrite Hlos. cbn [bind].
      destruct (Nat.le_gt_cases (length it) n) as [Hle|Hgt].
      + rewrite firstn_all2 in * by exact Hle. rewrite skipn_all2 by exact Hle. cbn [nsmallest_loop bind].
        rewrite E1. rewrite firstn_all2; [reflexivity|]. rewrite (Permutation_length (isort_perm vleb it)). exact Hle.
      + rewrite (nsmallest_loop_spec _ n (firstn n it)).
        * rewrite firstn_skipn. destruct (all_pairs vd_ok it); reflexivity.
        * rewrite firstn_length_le by lia. split; [|lia].
          unfold n. destruct limit as [k|]; cbn in Hlim; [lia|]. unfold n in Hgt. lia.
        * symmetry; apply firstn_all2. rewrite (Permutation_length (isort_perm vleb _)). apply firstn_le_length.
        * exact Hlos.
        * exact E1.
  Qed.

  (** ** The (value, docid) list *)
  Lemma nsort_In m (D : sset Z) v d : In (v, d) (nsort m D) <-> mem d D = true /\ get m d = Some v.
  Proof.
    unfold nsort. rewrite in_concat. split.
    - intros [l [Hl Hin]]. apply in_map_iff in Hl as [d' [<- Hd']]. apply selems_In in Hd'.
      destruct (get m d') as [v'|] eqn:E; [|destruct Hin]. destruct Hin as [[= <- <-]|[]]. auto.
    - intros [Hd Hv]. eexists; split; [apply in_map_iff; exists d; split; [reflexivity|apply selems_In, Hd]|].
      rewrite Hv. left; reflexivity.
  Qed.
  Lemma nsort_ids m D : map snd (nsort m D) = filter (fun d => mem d m) (selems D).
  Proof.
    unfold nsort. induction (selems D) as [|d l IH]; cbn; [reflexivity|]. rewrite map_app, IH.
    unfold mem at 2. destruct (get m d); reflexivity.
  Qed.
  Lemma selems_sorted (D : sset Z) : StronglySorted Z.lt (selems D).
  Proof.
    eapply StronglySorted_impl; [|apply (keys_sorted D)]. intros x y _ _ H. apply ltZ, H.
  Qed.
  Lemma selems_NoDup (D : sset Z) : NoDup (selems D).
  Proof. apply keys_NoDup. Qed.
  Lemma nsort_NoDup m D : NoDup (map snd (nsort m D)).
  Proof. rewrite nsort_ids. apply NoDup_filter, selems_NoDup. Qed.

  Lemma indexed_among_perm m docids l :
    Permutation l (filter (fun d => mem d m) (selems (set_of_list docids))) -> indexed_among m docids l.
  Proof.
    intros Hp. split.
    - eapply Permutation_NoDup; [apply Permutation_sym, Hp|]. apply NoDup_filter, selems_NoDup.
    - intros d. transitivity (In d (filter (fun d => mem d m) (selems (set_of_list docids)))).
      { split; apply Permutation_in; [exact Hp|apply Permutation_sym, Hp]. }
      rewrite filter_In, selems_In, mem_set_of_list_In, mem_get. reflexivity.
  Qed.

  Lemma sorted_pairs m (R : pyval * Z -> pyval * Z -> bool) (order : smap Z pyval -> Z -> Z -> Prop) l :
    (forall v d v' d', get m d = Some v -> get m d' = Some v' -> d <> d' -> R (v, d) (v', d') = true -> order m d d') ->
    (forall v d, In (v, d) l -> get m d = Some v) -> NoDup (map snd l) ->
    StronglySorted (fun p q => R p q = true) l -> StronglySorted (order m) (map snd l).
  Proof.
    intros HR Hl Hnd Hs. induction Hs as [|[v d] l Hs IH Hf]; cbn; [constructor|].
    cbn in Hnd. inversion Hnd as [|? ? Hnin Hnd']; subst. constructor.
    - apply IH; [|exact Hnd']. intros; apply Hl; right; assumption.
    - apply Forall_forall. intros d' Hd'. apply in_map_iff in Hd' as [[v' d''] [<- Hin]]. cbn.
      apply (HR v d v' d'').
      + apply Hl; left; reflexivity.
      + apply Hl; right; exact Hin.
      + intros ->. apply Hnin. apply in_map_iff. exists (v', d''). auto.
      + rewrite Forall_forall in Hf. apply (Hf _ Hin).
  Qed.

  Lemma leb_pair_order (v v' : pyval) d d' : d <> d' -> leb (v, d) (v', d') = true -> lt v v' \/ (v = v' /\ d < d').
  Proof.
    intros Hd H. rewrite leb_le, le_lteq in H. destruct H as [H|[= ? ?]]; [|contradiction].
    apply lt_pair in H as [H|[H1 H2]]; [left; exact H|right]. split; [exact H1|]. apply ltZ, H2.
  Qed.

  Lemma asc_sorted m docids : sorted_list asc_order m docids (map snd (isort vleb (nsort m (set_of_list docids)))).
  Proof.
    set (D := set_of_list docids).
    assert (Hp : Permutation (isort vleb (nsort m D)) (nsort m D)) by apply isort_perm.
    split.
    - eapply (sorted_pairs m vleb).
      + intros v d v' d' H1 H2 H3 H4. exists v, v'. splits; try assumption. apply leb_pair_order; assumption.
      + intros v d Hin. apply (Permutation_in _ Hp), nsort_In in Hin. apply Hin.
      + eapply Permutation_NoDup; [apply Permutation_map, Permutation_sym, Hp|]. apply nsort_NoDup.
      + apply isort_sorted; [apply leb_total|apply leb_trans].
    - apply indexed_among_perm. rewrite <- nsort_ids. apply Permutation_map, Hp.
  Qed.
  Lemma desc_sorted_nbest m docids :
    sorted_list desc_order_nbest m docids (map snd (isort (fun p q => vleb q p) (nsort m (set_of_list docids)))).
  Proof.
    set (D := set_of_list docids).
    assert (Hp : Permutation (isort (fun p q => vleb q p) (nsort m D)) (nsort m D)) by apply isort_perm.
    split.
    - eapply (sorted_pairs m (fun p q => vleb q p)).
      + intros v d v' d' H1 H2 H3 H4. exists v, v'. splits; try assumption.
        apply leb_pair_order in H4; [|congruence]. destruct H4 as [H4|[-> H4]]; auto.
      + intros v d Hin. apply (Permutation_in _ Hp), nsort_In in Hin. apply Hin.
      + eapply Permutation_NoDup; [apply Permutation_map, Permutation_sym, Hp|]. apply nsort_NoDup.
      + apply isort_sorted.
        * intros x y. apply leb_total.
        * intros x y z H1 H2. eapply leb_trans; eassumption.
    - apply indexed_among_perm. rewrite <- nsort_ids. apply Permutation_map, Hp.
  Qed.

  (** ** The full sort *)
  Definition full_R (reverse : bool) (key : Z -> pyval) (a b : Z) : bool :=
    if reverse then leb (key b) (key a) else leb (key a) (key b).
  Definition full_R' (reverse : bool) (key : Z -> pyval) (a b : Z) : bool :=
    (if reverse then ltb (key b) (key a) else ltb (key a) (key b)) || (eqb (key a) (key b) && (a <=? b)).

  Lemma full_R_R' reverse key a b : a < b -> full_R reverse key a b = full_R' reverse key a b.
  Proof.
    intros Hab. unfold full_R, full_R', leb, ltb, eqb. replace (a <=? b) with true by lia. rewrite andb_true_r.
    destruct reverse; [rewrite (cmp_sym (key a) (key b))|]; destruct (cmp (key a) (key b)); reflexivity.
  Qed.
  Lemma full_R'_spec reverse key a b :
    full_R' reverse key a b = true <->
    (if reverse then lt (key b) (key a) else lt (key a) (key b)) \/ (key a = key b /\ a <= b).
  Proof.
    unfold full_R'. rewrite orb_true_iff, andb_true_iff, eqb_eq, Z.leb_le.
    destruct reverse; rewrite ltb_lt; reflexivity.
  Qed.
  Lemma full_R'_total reverse key a b : full_R' reverse key a b = true \/ full_R' reverse key b a = true.
  Proof.
    rewrite !full_R'_spec. destruct (cmp_spec (key a) (key b)) as [E|E|E]; destruct reverse; auto.
    - destruct (Z.le_gt_cases a b); [left|right]; right; split; auto; lia.
    - destruct (Z.le_gt_cases a b); [left|right]; right; split; auto; lia.
  Qed.
  Lemma full_R'_trans reverse key a b c :
    full_R' reverse key a b = true -> full_R' reverse key b c = true -> full_R' reverse key a c = true.
  Proof.
    rewrite !full_R'_spec. destruct reverse.
    - intros [H1|[E1 H1]] [H2|[E2 H2]].
      + left; eapply lt_trans; eassumption.
      + left; rewrite <- E2; exact H1.
      + left; rewrite E1; exact H2.
      + right; split; [congruence|lia].
    - intros [H1|[E1 H1]] [H2|[E2 H2]].
      + left; eapply lt_trans; eassumption.
      + left; rewrite <- E2; exact H1.
      + left; rewrite E1; exact H2.
      + right; split; [congruence|lia].
  Qed.

  Lemma full_sorted m docids (reverse : bool) :
    sorted_list (if reverse then desc_order else asc_order) m docids
      (filter (fun d => mem d m) (isort (full_R reverse (getValue m)) (selems (set_of_list docids)))).
  Proof.
    set (D := set_of_list docids).
    rewrite (isort_ext_sorted Z.lt _ (full_R' reverse (getValue m)) _ (selems_sorted D))
      by (intros; apply full_R_R'; assumption).
    set (s := isort _ _). assert (Hp : Permutation s (selems D)) by apply isort_perm.
    assert (Hs : StronglySorted (fun a b => full_R' reverse (getValue m) a b = true) s)
      by (apply isort_sorted; [apply full_R'_total|apply full_R'_trans]).
    assert (Hnd : NoDup s) by (eapply Permutation_NoDup; [apply Permutation_sym, Hp|apply selems_NoDup]).
    split.
    - clearbody s. clear Hp. induction Hs as [|a s Hs IH Hf]; cbn; [destruct reverse; constructor|].
      inversion Hnd as [|? ? Hnin Hnd']; subst. specialize (IH Hnd').
      destruct (mem a m) eqn:Ea; [|exact IH].
      assert (Hall : forall b, In b (filter (fun d => mem d m) s) ->
        (if reverse then desc_order else asc_order) m a b).
      { intros b Hb. apply filter_In in Hb as [Hb Eb]. apply mem_get in Ea as [va Ha], Eb as [vb Hvb].
        rewrite Forall_forall in Hf. specialize (Hf _ Hb). apply full_R'_spec in Hf.
        unfold getValue in Hf. rewrite Ha, Hvb in Hf.
        assert (a <> b) by (intros ->; contradiction).
        destruct reverse; exists va, vb; splits; try assumption.
        - destruct Hf as [Hf|[Hf1 Hf2]]; [left; exact Hf|right; split; [exact Hf1|lia]].
        - destruct Hf as [Hf|[Hf1 Hf2]]; [left; exact Hf|right; split; [exact Hf1|lia]]. }
      destruct reverse; constructor; try exact IH; apply Forall_forall; exact Hall.
    - apply indexed_among_perm. fold D. clear -Hp. induction Hp; cbn.
      + constructor.
      + destruct (mem x m); [constructor|]; assumption.
      + destruct (mem x m), (mem y m); try reflexivity. constructor.
      + etransitivity; eassumption.
  Qed.

  (** ** The lazy strategy *)
  Lemma lazy_sorted st m docids : finv st m ->
    sorted_list asc_order m docids
      (concat (map (fun s : sset Z => selems (sinter (set_of_list docids) s)) (vals (fwd st)))).
  Proof.
    intros Hi. set (D := set_of_list docids). pose proof Hi as (_ & _ & H3 & _).
    assert (Hpost : forall v s, In (v, s) (elts (fwd st)) -> forall d, mem d s = true <-> get m d = Some v).
    { intros v s Hin d. apply get_In in Hin. rewrite H3 in Hin. unfold posting in Hin.
      destruct (is_empty (docs_with m v)); [discriminate|]. injection Hin as <-.
      rewrite mem_docs_with. destruct (get m d) as [w|]; [|split; discriminate].
      rewrite eqb_eq. split; congruence. }
    assert (Hsorted : StronglySorted (asc_order m) (concat (map (fun s : sset Z => selems (sinter D s)) (vals (fwd st))))).
    { pose proof (elts_sorted (fwd st)) as Hs. unfold Ssorted in Hs. unfold vals.
      clear Hi H3. induction (elts (fwd st)) as [|[v s] l IH]; cbn; [constructor|].
      cbn in Hs. inversion Hs as [|? ? Hs' Hf]; subst.
      apply StronglySorted_app.
      - eapply StronglySorted_impl; [|apply selems_sorted]. intros a b Ha Hb Hab.
        apply selems_In in Ha, Hb. rewrite mem_sinter, andb_true_iff in Ha, Hb.
        exists v, v. splits; [| |right; split; [reflexivity|exact Hab]];
          apply (Hpost v s); try (left; reflexivity); tauto.
      - apply IH; [|exact Hs']. intros v' s' Hin. apply Hpost. right; exact Hin.
      - intros a b Ha Hb. apply selems_In in Ha. rewrite mem_sinter, andb_true_iff in Ha.
        apply in_concat in Hb as [lb [Hlb Hb]]. rewrite map_map in Hlb. apply in_map_iff in Hlb as [[v' s'] [<- Hin]].
        cbn in Hb. apply selems_In in Hb. rewrite mem_sinter, andb_true_iff in Hb.
        exists v, v'. splits.
        + apply (Hpost v s); [left; reflexivity|tauto].
        + apply (Hpost v' s'); [right; exact Hin|tauto].
        + left. rewrite Forall_forall in Hf. apply Hf. apply in_map_iff. exists (v', s'). auto. }
    split; [exact Hsorted|]. split.
    - eapply (@StronglySorted_ind Z (asc_order m) (fun l => NoDup l)); [constructor| |exact Hsorted].
      intros a l _ IH Hf. constructor; [|exact IH]. intros Hin. rewrite Forall_forall in Hf.
      destruct (Hf _ Hin) as (va & vb & Ha & Hb & [H|[_ H]]); [|lia].
      rewrite Ha in Hb. injection Hb as <-. destruct (lt_irrefl _ H).
    - intros d. rewrite in_concat. split.
      + intros [l [Hl Hd]]. apply in_map_iff in Hl as [s [<- Hs]]. apply selems_In in Hd.
        rewrite mem_sinter, andb_true_iff in Hd. destruct Hd as [Hd1 Hd2].
        unfold D in Hd1. rewrite mem_set_of_list_In in Hd1. split; [exact Hd1|].
        apply in_map_iff in Hs as [[v s'] [E Hin]]. cbn in E; subst s'. exists v. apply (Hpost v s Hin), Hd2.
      + intros [Hd [v Hv]].
        assert (Hk : In v (keys (fwd st))) by (apply (posting_keys _ _ _ Hi); eauto).
        apply keys_In in Hk as [s Hs]. exists (selems (sinter D s)). split.
        * apply in_map_iff. exists s. split; [reflexivity|]. apply vals_In. eauto.
        * apply selems_In. rewrite mem_sinter, andb_true_iff. split.
          -- unfold D. apply mem_set_of_list_In, Hd.
          -- apply (Hpost v s); [apply get_In, Hs|exact Hv].
  Qed.

  (** ** Uniqueness of sorted lists *)
  Lemma asc_order_asym m a b : asc_order m a b -> asc_order m b a -> False.
  Proof.
    intros (va & vb & Ha & Hb & H) (vb' & va' & Hb' & Ha' & H').
    rewrite Ha in Ha'; rewrite Hb in Hb'. injection Ha' as <-. injection Hb' as <-.
    destruct H as [H|[-> H]], H' as [H'|[E' H']]; subst; try lia.
    - apply (lt_irrefl va). eapply lt_trans; eassumption.
    - apply (lt_irrefl _ H).
    - apply (lt_irrefl _ H').
  Qed.
  Lemma desc_order_asym m a b : desc_order m a b -> desc_order m b a -> False.
  Proof.
    intros (va & vb & Ha & Hb & H) (vb' & va' & Hb' & Ha' & H').
    rewrite Ha in Ha'; rewrite Hb in Hb'. injection Ha' as <-. injection Hb' as <-.
    destruct H as [H|[-> H]], H' as [H'|[E' H']]; subst; try lia.
    - apply (lt_irrefl va). eapply lt_trans; eassumption.
    - apply (lt_irrefl _ H).
    - apply (lt_irrefl _ H').
  Qed.
  Lemma desc_order_nbest_asym m a b : desc_order_nbest m a b -> desc_order_nbest m b a -> False.
  Proof.
    intros (va & vb & Ha & Hb & H) (vb' & va' & Hb' & Ha' & H').
    rewrite Ha in Ha'; rewrite Hb in Hb'. injection Ha' as <-. injection Hb' as <-.
    destruct H as [H|[-> H]], H' as [H'|[E' H']]; subst; try lia.
    - apply (lt_irrefl va). eapply lt_trans; eassumption.
    - apply (lt_irrefl _ H).
    - apply (lt_irrefl _ H').
  Qed.
  Lemma sorted_list_unique (order : smap Z pyval -> Z -> Z -> Prop) m docids l1 l2 :
    (forall a b, order m a b -> order m b a -> False) ->
    sorted_list order m docids l1 -> sorted_list order m docids l2 -> l1 = l2.
  Proof.
    intros Has [H1 [_ I1]] [H2 [_ I2]]. apply (StronglySorted_members (order m)); try assumption.
    intros x. rewrite I1, I2. reflexivity.
  Qed.

  (** ** Type errors *)
  Lemma nbest_ok_iff m docids : homog m ->
    (all_pairs vd_ok (nsort m (set_of_list docids)) = false <-> nbest_type_error m docids).
  Proof.
    intros Hh. split.
    - intros H. apply all_pairs_false_iff in H as (l1 & [va a] & l2 & [vb b] & l3 & E & Hk).
      assert (Ha : In (va, a) (nsort m (set_of_list docids))) by (rewrite E; apply in_or_app; right; left; reflexivity).
      assert (Hb : In (vb, b) (nsort m (set_of_list docids))).
      { rewrite E; apply in_or_app; right; right; apply in_or_app; right; left; reflexivity. }
      apply nsort_In in Ha as [Ha1 Ha2], Hb as [Hb1 Hb2]. rewrite mem_set_of_list_In in Ha1, Hb1.
      unfold vd_ok, tuple_ok in Hk. cbn in Hk. specialize (Hh _ _ _ _ Ha2 Hb2). unfold key_ok in Hh.
      rewrite Hk, orb_false_r in Hh. destruct va, vb; cbn in Hk, Hh; try discriminate.
      + exists a, b, (VInt z). splits; try assumption. discriminate.
      + exists a, b, (VObj t). splits; try assumption. discriminate.
      + exists b, a, (VInt z). splits; try assumption. discriminate.
      + exists b, a, (VObj t). splits; try assumption. discriminate.
    - intros (a & b & vb & Ha & Hb & Hva & Hvb & Hn).
      destruct (all_pairs vd_ok (nsort m (set_of_list docids))) eqn:E; [|reflexivity].
      rewrite vd_ok_pairs in E. exfalso.
      specialize (E (VNone, a) (vb, b)). rewrite !nsort_In, !mem_set_of_list_In in E. cbn in E.
      destruct vb; [contradiction| |]; discriminate E; auto.
  Qed.

  Lemma full_ok_iff m docids : homog m ->
    (all_pairs (fun a b => lt_ok (getValue m a) (getValue m b)) (selems (set_of_list docids)) = false
     <-> full_type_error m docids).
  Proof.
    intros Hh. set (D := set_of_list docids). split.
    - intros H. apply all_pairs_false_iff in H as (l1 & a & l2 & b & l3 & E & Hk).
      assert (Ha : In a docids) by (apply mem_set_of_list_In, selems_In; unfold D in E; rewrite E; apply in_or_app; right; left; reflexivity).
      assert (Hb : In b docids).
      { apply mem_set_of_list_In, selems_In; unfold D in E; rewrite E.
        apply in_or_app; right; right; apply in_or_app; right; left; reflexivity. }
      assert (Hab : a <> b).
      { pose proof (selems_NoDup D) as Hnd. rewrite E in Hnd. apply NoDup_remove_2 in Hnd. intros ->. apply Hnd.
        apply in_or_app; right; apply in_or_app; right; left; reflexivity. }
      unfold lt_ok, getValue in Hk.
      destruct (get m a) as [va|] eqn:Ea, (get m b) as [vb|] eqn:Eb.
      + specialize (Hh _ _ _ _ Ea Eb). unfold key_ok in Hh. destruct va, vb; cbn in Hk, Hh; try discriminate; left.
        * exists a, b; auto.
        * exists a, b; auto.
        * exists a, b; auto.
        * exists b, a; splits; auto.
        * exists b, a; splits; auto.
      + destruct va; cbn in Hk; try discriminate.
        * left. exists a, b; auto.
        * right. exists b, a, t; auto.
      + destruct vb; cbn in Hk; try discriminate.
        * left. exists b, a; splits; auto.
        * right. exists a, b, t; auto.
      + discriminate.
    - intros H. destruct (all_pairs _ _) eqn:E; [exfalso|reflexivity].
      assert (Hpair : forall a b, In a docids -> In b docids -> a <> b ->
                lt_ok (getValue m a) (getValue m b) = true \/ lt_ok (getValue m b) (getValue m a) = true).
      { intros a b Ha Hb Hab. apply mem_set_of_list_In, selems_In in Ha, Hb. fold D in Ha, Hb.
        revert E Ha Hb. generalize (selems D). clear -Hab. induction l as [|x l IH]; [intros _ []|].
        cbn. rewrite andb_true_iff, forallb_forall. intros [H1 H2] [<-|Ha] [<-|Hb]; auto. }
      destruct H as [(a & b & Ha & Hb & Hab & Hv)|(a & b & t & Ha & Hb & Hv & Hw)].
      + specialize (Hpair a b Ha Hb Hab). unfold getValue in Hpair. rewrite Hv in Hpair.
        unfold lt_ok in Hpair. cbn in Hpair. destruct (get m b) as [[| |]|]; cbn in Hpair; destruct Hpair; discriminate.
      + assert (Hab : a <> b) by (intros ->; congruence). specialize (Hpair a b Ha Hb Hab).
        unfold getValue in Hpair. rewrite Hv, Hw in Hpair. cbn in Hpair. destruct Hpair; discriminate.
  Qed.

  (** ** The whole function *)
  Lemma nbest_full_error m docids : nbest_type_error m docids -> full_type_error m docids.
  Proof.
    intros (a & b & vb & Ha & Hb & Hva & Hvb & Hn). left. exists a, b. splits; try assumption.
    intros ->. congruence.
  Qed.

  Definition use_nb (ovn : bool) (limit : option Z) (docids : list Z) : bool :=
    ovn || match limit with Some k => k * 4 <? Zsize (set_of_list docids) | None => false end.

  Lemma f_sort_cases heur ovl ovn docids (reverse : bool) limit (h : list fop) : limit_ok limit ->
    let m := current h in
    let f := f_sort heur ovl ovn docids reverse limit (f_run h) in
    (is_empty m = true \/ docids = [] -> f = Ok []) /\
    (is_empty m = false -> docids <> [] ->
      f = if use_nb ovn limit docids then
            if reverse then
              match limit with
              | None => Raise TypeError
              | Some k => if all_pairs vd_ok (nsort m (set_of_list docids))
                          then Ok (truncate limit (map snd (isort (fun p q => vleb q p) (nsort m (set_of_list docids)))))
                          else Raise TypeError
              end
            else if all_pairs vd_ok (nsort m (set_of_list docids))
                 then Ok (truncate limit (map snd (isort vleb (nsort m (set_of_list docids)))))
                 else Raise TypeError
          else if (ovl || heur (Zsize (set_of_list docids)) (Zsize m)) && negb reverse then
            Ok (truncate limit (concat (map (fun s => selems (sinter (set_of_list docids) s)) (vals (fwd (f_run h))))))
          else if all_pairs (fun a b => lt_ok (getValue m a) (getValue m b)) (selems (set_of_list docids))
               then Ok (truncate limit (filter (fun d => mem d m)
                          (isort (full_R reverse (getValue m)) (selems (set_of_list docids)))))
               else Raise TypeError).
  Proof.
    intros Hlim m f. pose proof (f_run_inv h) as (H1 & H2 & _). fold m in H1, H2.
    unfold f, f_sort. clear f.
    assert (Hl0 : match limit with Some k => k <? 1 | None => false end = false)
      by (destruct limit; cbn in Hlim; [lia|reflexivity]).
    rewrite Hl0, H1, H2. clear Hl0.
    assert (Hsz : (Zsize m =? 0) = is_empty m).
    { apply eq_true_iff_eq. rewrite is_empty_spec, <- size_0. unfold Zsize. rewrite Z.eqb_eq. lia. }
    rewrite Hsz.
    assert (He : is_empty (set_of_list docids) = match docids with [] => true | _ => false end).
    { destruct docids as [|d docids]; [reflexivity|].
      destruct (is_empty (set_of_list (d :: docids))) eqn:E; [|reflexivity].
      pose proof (proj1 (is_empty_mem _) E d) as Hx.
      rewrite (proj2 (mem_set_of_list_In (d :: docids) d) (or_introl eq_refl)) in Hx. discriminate. }
    rewrite He. split.
    - intros [H|H]; [rewrite H; reflexivity|]. rewrite H. destruct (is_empty m); reflexivity.
    - intros Hm Hd. rewrite Hm. destruct docids as [|d docids]; [contradiction|]. clear Hd He. cbn [is_empty].
      set (D := set_of_list (d :: docids)).
      assert (Hnb : (ovn || match limit with Some k => negb (k =? 0) && (k * 4 <? Zsize D) | None => false end)
                    = use_nb ovn limit (d :: docids)).
      { unfold use_nb. fold D. destruct limit as [k|]; [|reflexivity]. cbn in Hlim.
        replace (k =? 0) with false by lia. reflexivity. }
      rewrite Hnb. clear Hnb. destruct (use_nb ovn limit (d :: docids)).
      + destruct reverse.
        * unfold nlargest. destruct limit as [k|]; [|reflexivity]. unfold py_sorted.
          destruct (all_pairs vd_ok (nsort m D)); [|reflexivity]. cbn [bind truncate]. rewrite firstn_map. reflexivity.
        * apply nsmallest_spec, Hlim.
      + destruct ((ovl || heur (Zsize D) (Zsize m)) && negb reverse).
        * rewrite yield_truncate by exact Hlim. reflexivity.
        * unfold py_sorted. destruct (all_pairs _ (selems D)); [|reflexivity].
          cbn [bind]. rewrite yield_truncate by exact Hlim. reflexivity.
  Qed.

  Lemma sorted_list_nil order m docids l : is_empty m = true \/ docids = [] ->
    sorted_list order m docids l -> l = [].
  Proof.
    intros H [_ [_ Hin]]. destruct l as [|a l]; [reflexivity|].
    destruct (proj1 (Hin a) (or_introl eq_refl)) as [Ha [v Hv]].
    destruct H as [H|H]; [|subst docids; destruct Ha].
    rewrite (proj1 (is_empty_get _) H) in Hv. discriminate.
  Qed.
  Lemma truncate_nil {A} limit : @truncate A limit [] = [].
  Proof. destruct limit; [apply firstn_nil|reflexivity]. Qed.

  Lemma f_sort_asc heur ovl ovn docids limit (h : list fop) l : limit_ok limit ->
    sorted_list asc_order (current h) docids l ->
    f_sort heur ovl ovn docids false limit (f_run h) = Ok (truncate limit l) \/
    (f_sort heur ovl ovn docids false limit (f_run h) = Raise TypeError /\ full_type_error (current h) docids).
  Proof.
    intros Hlim Hl. pose proof (f_run_inv h) as Hi. pose proof Hi as (_ & _ & _ & Hh).
    destruct (f_sort_cases heur ovl ovn docids false limit h Hlim) as [C1 C2].
    pose proof (asc_order_asym (current h)) as Has.
    destruct (is_empty (current h)) eqn:Em.
    { left. rewrite C1 by (left; reflexivity). rewrite (sorted_list_nil _ _ _ _ (or_introl Em) Hl), truncate_nil. reflexivity. }
    destruct docids as [|d docids].
    { left. rewrite C1 by (right; reflexivity). rewrite (sorted_list_nil _ _ _ _ (or_intror eq_refl) Hl), truncate_nil. reflexivity. }
    rewrite C2 by (reflexivity || discriminate). clear C1 C2. set (ds := d :: docids) in *.
    destruct (use_nb ovn limit ds).
    - destruct (all_pairs vd_ok (nsort (current h) (set_of_list ds))) eqn:E.
      + left. rewrite (sorted_list_unique _ _ _ _ _ Has Hl (asc_sorted _ _)). reflexivity.
      + right. split; [reflexivity|]. apply nbest_full_error, nbest_ok_iff; assumption.
    - destruct ((ovl || heur (Zsize (set_of_list ds)) (Zsize (current h))) && negb false).
      + left. rewrite (sorted_list_unique _ _ _ _ _ Has Hl (lazy_sorted _ _ ds Hi)). reflexivity.
      + destruct (all_pairs _ (selems (set_of_list ds))) eqn:E.
        * left. rewrite (sorted_list_unique _ _ _ _ _ Has Hl (full_sorted _ ds false)). reflexivity.
        * right. split; [reflexivity|]. apply full_ok_iff; assumption.
  Qed.

  Lemma f_sort_desc heur ovl ovn docids limit (h : list fop) l l' : limit_ok limit ->
    sorted_list desc_order (current h) docids l -> sorted_list desc_order_nbest (current h) docids l' ->
    f_sort heur ovl ovn docids true limit (f_run h)
      = Ok (truncate limit (if use_nb ovn limit docids then l' else l)) \/
    (f_sort heur ovl ovn docids true limit (f_run h) = Raise TypeError /\
     (full_type_error (current h) docids \/ (ovn = true /\ limit = None))).
  Proof.
    intros Hlim Hl Hl'. pose proof (f_run_inv h) as Hi. pose proof Hi as (_ & _ & _ & Hh).
    destruct (f_sort_cases heur ovl ovn docids true limit h Hlim) as [C1 C2].
    destruct (is_empty (current h)) eqn:Em.
    { left. rewrite C1 by (left; reflexivity). rewrite (sorted_list_nil _ _ _ _ (or_introl Em) Hl), (sorted_list_nil _ _ _ _ (or_introl Em) Hl').
      destruct (use_nb _ _ _); rewrite truncate_nil; reflexivity. }
    destruct docids as [|d docids].
    { left. rewrite C1 by (right; reflexivity). rewrite (sorted_list_nil _ _ _ _ (or_intror eq_refl) Hl), (sorted_list_nil _ _ _ _ (or_intror eq_refl) Hl').
      destruct (use_nb _ _ _); rewrite truncate_nil; reflexivity. }
    rewrite C2 by (reflexivity || discriminate). clear C1 C2. set (ds := d :: docids) in *.
    destruct (use_nb ovn limit ds) eqn:Eu.
    - destruct limit as [k|].
      2:{ right. split; [reflexivity|]. right. split; [|reflexivity]. unfold use_nb in Eu. rewrite orb_false_r in Eu. exact Eu. }
      destruct (all_pairs vd_ok (nsort (current h) (set_of_list ds))) eqn:E.
      + left. rewrite (sorted_list_unique _ _ _ _ _ (desc_order_nbest_asym (current h)) Hl' (desc_sorted_nbest _ _)). reflexivity.
      + right. split; [reflexivity|]. left. apply nbest_full_error, nbest_ok_iff; assumption.
    - rewrite andb_false_r. destruct (all_pairs _ (selems (set_of_list ds))) eqn:E.
      + left. rewrite (sorted_list_unique _ _ _ _ _ (desc_order_asym (current h)) Hl (full_sorted _ ds true)). reflexivity.
      + right. split; [reflexivity|]. left. apply full_ok_iff; assumption.
  Qed.

  Lemma sort_type_error_iff heur ovl ovn docids (reverse : bool) limit (h : list fop) : limit_ok limit ->
    let m := current h in
    let distinct := Zsize (set_of_list docids) in
    let nbest := ovn || match limit with Some k => k * 4 <? distinct | None => false end in
    let lazy := (ovl || heur distinct (Zlen (keys m))) && negb reverse in
    f_sort heur ovl ovn docids reverse limit (f_run h) = Raise TypeError <->
      m <> empty /\ docids <> [] /\
      if nbest then nbest_type_error m docids \/ (reverse = true /\ limit = None)
      else if lazy then False else full_type_error m docids.
  Proof.
    intros Hlim m distinct nbest lazy. pose proof (f_run_inv h) as Hi. pose proof Hi as (_ & _ & _ & Hh).
    destruct (f_sort_cases heur ovl ovn docids reverse limit h Hlim) as [C1 C2]. fold m in C1, C2.
    destruct (is_empty m) eqn:Em.
    { rewrite C1 by (left; reflexivity). split; [discriminate|]. intros [H _]. destruct H. apply is_empty_spec, Em. }
    assert (Hne : m <> empty) by (intros E; apply is_empty_spec in E; congruence).
    destruct docids as [|d docids].
    { rewrite C1 by (right; reflexivity). split; [discriminate|]. intros [_ [H _]]. destruct H; reflexivity. }
    rewrite C2 by (reflexivity || discriminate). clear C1 C2. set (ds := d :: docids) in *.
    assert (Hz : Zlen (keys m) = Zsize m) by (unfold Zlen, Zsize, size, keys; rewrite map_length; reflexivity).
    unfold lazy. rewrite Hz. clear lazy.
    change (use_nb ovn limit ds) with nbest. fold distinct.
    pose proof (nbest_ok_iff m ds Hh) as N. pose proof (full_ok_iff m ds Hh) as F.
    assert (Hds : ds <> []) by discriminate.
    destruct nbest.
    - destruct reverse.
      + destruct limit as [k|].
        * destruct (all_pairs vd_ok _) eqn:E.
          -- split; [discriminate|]. intros (_ & _ & [H|[_ H]]); [apply N in H|]; discriminate.
          -- split; [|reflexivity]. intros _. splits; try assumption. left. apply N; reflexivity.
        * split; [intros _; splits; try assumption; right; split; reflexivity|reflexivity].
      + destruct (all_pairs vd_ok _) eqn:E.
        * split; [discriminate|]. intros (_ & _ & [H|[H _]]); [apply N in H|]; discriminate.
        * split; [|reflexivity]. intros _. splits; try assumption. left. apply N; reflexivity.
    - destruct ((ovl || heur distinct (Zsize m)) && negb reverse).
      + split; [discriminate|]. intros (_ & _ & []).
      + destruct (all_pairs _ (selems (set_of_list ds))) eqn:E.
        * split; [discriminate|]. intros (_ & _ & H). apply F in H. discriminate.
        * split; [|reflexivity]. intros _. splits; try assumption. apply F; reflexivity.
  Qed.

  Lemma sort_outcomes heur ovl ovn docids (reverse : bool) limit st :
    (match limit with Some k => k < 1 | None => False end ->
       f_sort heur ovl ovn docids reverse limit st = Raise ValueError) /\
    (limit_ok limit -> forall h, st = f_run h -> f_sort heur ovl ovn docids reverse limit st <> Raise ValueError).
  Proof.
    split.
    - destruct limit as [k|]; [|intros []]. intros H. unfold f_sort. replace (k <? 1) with true by lia. reflexivity.
    - intros Hlim h ->. destruct (f_sort_cases heur ovl ovn docids reverse limit h Hlim) as [C1 C2].
      destruct (is_empty (current h)) eqn:Em; [rewrite C1 by (left; reflexivity); discriminate|].
      destruct docids as [|d docids]; [rewrite C1 by (right; reflexivity); discriminate|].
      rewrite C2 by (reflexivity || discriminate).
      destruct (use_nb _ _ _); [destruct reverse; [destruct limit|]|destruct (_ && _)];
        try destruct (all_pairs _ _); discriminate.
  Qed.

  (** ** Consequences for descending sorts *)
  Lemma firstn_In' {A} n (l : list A) x : In x (firstn n l) -> In x l.
  Proof. intros H. rewrite <- (firstn_skipn n l). apply in_or_app; left; exact H. Qed.

  Lemma truncate_split {A} limit (l : list A) : exists rest, l = truncate limit l ++ rest.
  Proof.
    destruct limit as [k|]; cbn; [exists (skipn (Z.to_nat k) l); symmetry; apply firstn_skipn|].
    exists []. symmetry; apply app_nil_r.
  Qed.
  Lemma truncate_length {A} limit (l : list A) : limit_ok limit ->
    Zlen (truncate limit l) = match limit with Some k => Z.min k (Zlen l) | None => Zlen l end.
  Proof. destruct limit as [k|]; cbn; [|reflexivity]. unfold Zlen. rewrite firstn_length. lia. Qed.

  Lemma desc_consequences (order : smap Z pyval -> Z -> Z -> Prop) m docids limit l : limit_ok limit ->
    (forall a b, order m a b -> value_desc m a b) ->
    sorted_list order m docids l ->
    let r := truncate limit l in
    StronglySorted (value_desc m) r /\ NoDup r /\
    (forall d, In d r -> In d docids /\ exists v, get m d = Some v) /\
    (exists all, indexed_among m docids all /\
       Zlen r = match limit with Some k => Z.min k (Zlen all) | None => Zlen all end) /\
    (forall d d', In d r -> In d' docids -> ~ In d' r -> (exists v, get m d' = Some v) -> value_desc m d d').
  Proof.
    intros Hlim Hord [Hs [Hnd Hin]] r. destruct (truncate_split limit l) as [rest Hrest]. fold r in Hrest.
    assert (Hs' : StronglySorted (value_desc m) l)
      by (eapply StronglySorted_impl; [|exact Hs]; intros; apply Hord; assumption).
    pose proof Hs' as Hs''. rewrite Hrest in Hs''. apply StronglySorted_app_inv in Hs'' as (S1 & _ & S3).
    splits.
    - exact S1.
    - rewrite Hrest in Hnd. clear -Hnd. induction r as [|x r IH]; [constructor|].
      cbn in Hnd. inversion Hnd as [|? ? H1 H2]; subst. constructor; [|apply IH, H2].
      intros Hx. apply H1, in_or_app. left; exact Hx.
    - intros d Hd. apply Hin. rewrite Hrest. apply in_or_app; left; exact Hd.
    - exists l. split; [split; assumption|]. apply truncate_length, Hlim.
    - intros d d' Hd Hd' Hnin Hv. apply S3; [exact Hd|].
      assert (H : In d' l) by (apply Hin; auto). rewrite Hrest in H. apply in_app_iff in H as [H|H]; [contradiction|exact H].
  Qed.

  Lemma f_sort_desc_props heur ovl ovn docids limit (h : list fop) r : limit_ok limit ->
    let m := current h in
    f_sort heur ovl ovn docids true limit (f_run h) = Ok r ->
    StronglySorted (value_desc m) r /\ NoDup r /\
    (forall d, In d r -> In d docids /\ exists v, get m d = Some v) /\
    (exists all, indexed_among m docids all /\
       Zlen r = match limit with Some k => Z.min k (Zlen all) | None => Zlen all end) /\
    (forall d d', In d r -> In d' docids -> ~ In d' r -> (exists v, get m d' = Some v) -> value_desc m d d').
  Proof.
    intros Hlim m Hr.
    assert (O1 : forall a b, desc_order m a b -> value_desc m a b).
    { intros a b (va & vb & Ha & Hb & H). exists va, vb. splits; try assumption.
      destruct H as [H|[-> _]]; [apply lt_le, H|apply le_refl]. }
    assert (O2 : forall a b, desc_order_nbest m a b -> value_desc m a b).
    { intros a b (va & vb & Ha & Hb & H). exists va, vb. splits; try assumption.
      destruct H as [H|[-> _]]; [apply lt_le, H|apply le_refl]. }
    pose proof (full_sorted m docids true) as L1. pose proof (desc_sorted_nbest m docids) as L2.
    destruct (f_sort_desc heur ovl ovn docids limit h _ _ Hlim L1 L2) as [H|[H _]]; [|congruence].
    rewrite Hr in H. injection H as ->. destruct (use_nb ovn limit docids).
    - apply (desc_consequences desc_order_nbest); assumption.
    - apply (desc_consequences desc_order); assumption.
  Qed.

  (** C20: the limited sort is a prefix of the full one when the n-best strategy is
      not chosen, or when no two of the documents have the same value. *)
  Lemma desc_orders_agree m docids l : distinct_values m docids ->
    sorted_list desc_order m docids l -> sorted_list desc_order_nbest m docids l.
  Proof.
    intros Hd [Hs Hi]. split; [|exact Hi]. eapply StronglySorted_impl; [|exact Hs].
    intros a b Ha Hb (va & vb & Hva & Hvb & H). exists va, vb. splits; try assumption.
    destruct H as [H|[-> H]]; [left; exact H|]. exfalso.
    destruct Hi as [_ Hi]. apply Hi in Ha as [Ha _], Hb as [Hb _].
    assert (a = b) by (eapply Hd; eassumption). lia.
  Qed.
  Lemma f_sort_desc_prefix heur ovl docids limit (h : list fop) r full : limit_ok limit ->
    (use_nb false limit docids = false \/ distinct_values (current h) docids) ->
    f_sort heur ovl false docids true None (f_run h) = Ok full ->
    f_sort heur ovl false docids true limit (f_run h) = Ok r ->
    r = truncate limit full.
  Proof.
    intros Hlim Hc Hf Hr.
    pose proof (full_sorted (current h) docids true) as L1. pose proof (desc_sorted_nbest (current h) docids) as L2.
    destruct (f_sort_desc heur ovl false docids limit h _ _ Hlim L1 L2) as [H|[H _]]; [|congruence].
    destruct (f_sort_desc heur ovl false docids None h _ _ I L1 L2) as [H0|[H0 _]]; [|congruence].
    rewrite Hr in H. rewrite Hf in H0. cbn [use_nb orb truncate] in H0.
    destruct (use_nb false limit docids); injection H as ->; injection H0 as ->; [|reflexivity].
    destruct Hc as [Hc|Hc]; [discriminate|].
    f_equal. eapply sorted_list_unique; [apply desc_order_nbest_asym|exact L2|].
    apply desc_orders_agree; assumption.
  Qed.
  Lemma f_sort_asc_prefix heur ovl ovn docids limit (h : list fop) r full : limit_ok limit ->
    f_sort heur ovl ovn docids false None (f_run h) = Ok full ->
    f_sort heur ovl ovn docids false limit (f_run h) = Ok r ->
    r = truncate limit full.
  Proof.
    intros Hlim Hf Hr. pose proof (asc_sorted (current h) docids) as L1.
    destruct (f_sort_asc heur ovl ovn docids limit h _ Hlim L1) as [H|[H _]]; [|congruence].
    destruct (f_sort_asc heur ovl ovn docids None h _ I L1) as [H0|[H0 _]]; [|congruence].
    rewrite Hr in H. rewrite Hf in H0. injection H as ->. injection H0 as ->. reflexivity.
  Qed.
  Lemma sort_total heur ovl ovn docids (reverse : bool) limit (h : list fop) : limit_ok limit ->
    ~ full_type_error (current h) docids -> (reverse = true -> limit = None -> ovn = false) ->
    exists r, f_sort heur ovl ovn docids reverse limit (f_run h) = Ok r /\
      forall d, In d r -> In d docids /\ exists v, get (current h) d = Some v.
  Proof.
    intros Hlim Hn Ho. destruct reverse.
    - pose proof (full_sorted (current h) docids true) as L1. pose proof (desc_sorted_nbest (current h) docids) as L2.
      destruct (f_sort_desc heur ovl ovn docids limit h _ _ Hlim L1 L2) as [H|[H [H'|[H1 H2]]]].
      + exists (truncate limit (if use_nb ovn limit docids
            then map snd (isort (fun p q => vleb q p) (nsort (current h) (set_of_list docids)))
            else filter (fun d => mem d (current h))
              (isort (full_R true (getValue (current h))) (selems (set_of_list docids))))).
        split; [exact H|]. eapply (f_sort_desc_props heur ovl ovn docids limit h); eassumption.
      + contradiction.
      + rewrite Ho in H1 by (reflexivity || assumption). discriminate.
    - pose proof (asc_sorted (current h) docids) as L1.
      destruct (f_sort_asc heur ovl ovn docids limit h _ Hlim L1) as [H|[H H']]; [|contradiction].
      eexists; split; [exact H|]. intros d Hd. destruct L1 as [_ [_ L1]]. apply L1.
      destruct limit; cbn in Hd; [eapply firstn_In'; exact Hd|exact Hd].
  Qed.
End L.
