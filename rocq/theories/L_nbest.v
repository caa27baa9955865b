(** * Lemmas about NBest *)
From Verif Require Import S_nbest.

Section Bisect.
  Context {S : Type} `{OS : Ord S}.
  Implicit Types (a : list S) (x : S).

  Definition asc a : Prop := StronglySorted le a.
  Definition nless a x : nat := length (filter (fun y => ltb y x) a).

  Lemma asc_nth a i j y z : asc a -> (i <= j)%nat ->
    nth_error a i = Some y -> nth_error a j = Some z -> le y z.
  Proof.
    intros Ha. revert i j; induction Ha as [|w a Ha IH Hf]; intros i j Hij Hi Hj.
    - destruct i; discriminate.
    - destruct i, j; simpl in *; try lia.
      + injection Hi as <-; injection Hj as <-. apply le_refl.
      + injection Hi as <-. rewrite Forall_forall in Hf. apply Hf. eapply nth_error_In; eassumption.
      + apply (IH i j); [lia|assumption|assumption].
  Qed.

  Lemma bisect_loop_ok fuel a x lo hi :
    asc a -> (hi <= length a)%nat -> (lo <= hi)%nat -> (hi - lo < fuel)%nat ->
    (forall i y, (i < lo)%nat -> nth_error a i = Some y -> lt y x) ->
    (forall i y, (hi <= i)%nat -> nth_error a i = Some y -> le x y) ->
    exists k, bisect_loop fuel a x lo hi = Ok k /\ (k <= length a)%nat /\
      (forall i y, (i < k)%nat -> nth_error a i = Some y -> lt y x) /\
      (forall i y, (k <= i)%nat -> nth_error a i = Some y -> le x y).
  Proof.
    intros Ha. revert lo hi; induction fuel as [|n IH]; intros lo hi Hhi Hlo Hf Hl Hr; [lia|].
    cbn [bisect_loop]. destruct (Nat.ltb_spec lo hi) as [H|H].
    - set (mid := ((lo + hi) / 2)%nat).
      assert (Hm : (lo <= mid < hi)%nat).
      { unfold mid. pose proof (Nat.div_mod (lo + hi) 2 ltac:(lia)).
        pose proof (Nat.mod_upper_bound (lo + hi) 2 ltac:(lia)). lia. }
      destruct (nth_error a mid) as [y|] eqn:E.
      2:{ apply nth_error_None in E. lia. }
      destruct (ltb y x) eqn:F.
      + apply IH; try lia.
        * intros i z Hi Hz. apply ltb_lt in F. eapply le_lt_trans; [|exact F].
          apply (asc_nth a i mid z y Ha); [lia|exact Hz|exact E].
        * exact Hr.
      + apply IH; try lia.
        * exact Hl.
        * intros i z Hi Hz. assert (Hxy : le x y).
          { apply not_lt_le. intros Hc. apply ltb_lt in Hc. congruence. }
          eapply le_trans; [exact Hxy|]. apply (asc_nth a mid i y z Ha); [lia|exact E|exact Hz].
    - exists lo. split; [reflexivity|]. split; [lia|]. split; [exact Hl|].
      intros i z Hi. apply Hr. lia.
  Qed.

  Lemma split_count a x k :
    (k <= length a)%nat ->
    (forall i y, (i < k)%nat -> nth_error a i = Some y -> lt y x) ->
    (forall i y, (k <= i)%nat -> nth_error a i = Some y -> le x y) -> k = nless a x.
  Proof.
    unfold nless. revert k; induction a as [|y a IH]; intros k Hk Hl Hr; simpl in *; [lia|].
    destruct k as [|k].
    - assert (Hy : le x y) by exact (Hr O y ltac:(lia) eq_refl).
      assert (E : ltb y x = false).
      { destruct (ltb y x) eqn:E; [|reflexivity]. apply ltb_lt in E. exfalso; exact (lt_not_le _ _ E Hy). }
      rewrite E. apply IH; [lia| |].
      + intros i z Hi; lia.
      + intros i z _ Hz. exact (Hr (Datatypes.S i) z ltac:(lia) Hz).
    - assert (Hy : lt y x) by exact (Hl O y ltac:(lia) eq_refl).
      apply ltb_lt in Hy as E. rewrite E. simpl. f_equal. apply IH; [lia| |].
      + intros i z Hi Hz. exact (Hl (Datatypes.S i) z ltac:(lia) Hz).
      + intros i z Hi Hz. exact (Hr (Datatypes.S i) z ltac:(lia) Hz).
  Qed.

  Lemma bisect_left_ok a x : asc a -> bisect_left a x = Ok (nless a x).
  Proof.
    intros Ha. unfold bisect_left.
    destruct (bisect_loop_ok (length a + 1) a x 0 (length a) Ha) as [k [Hk [Hkl [H1 H2]]]]; try lia.
    - intros i y Hi Hy. assert (Hn : nth_error a i = None) by (apply nth_error_None; exact Hi). congruence.
    - rewrite Hk. f_equal. apply split_count; assumption.
  Qed.
End Bisect.

Section NB.
  Context {A S : Type} `{OS : Ord S}.
  Implicit Types (nb : nbest A S) (l : list (A * S)) (p : A * S).

  (** The object holds [rev l]. *)
  Definition nb_repr nb (N : nat) l : Prop :=
    nb_capacity nb = Z.of_nat N /\ (1 <= N)%nat /\ (length l <= N)%nat /\
    nb_scores nb = rev (map snd l) /\ nb_items nb = rev (map fst l) /\
    StronglySorted (fun p q => score_desc p q = true) l.

  Lemma combine_rev_map l : combine (rev (map fst l)) (rev (map snd l)) = rev l.
  Proof.
    rewrite <- !map_rev. induction (rev l) as [|[a s] r IH]; simpl; [reflexivity|]. rewrite IH; reflexivity.
  Qed.

  Lemma nb_getbest_repr nb N l : nb_repr nb N l -> nb_getbest nb = l.
  Proof.
    intros (_ & _ & _ & Hs & Hi & _). unfold nb_getbest. rewrite Hs, Hi, combine_rev_map.
    apply rev_involutive.
  Qed.

  Lemma sorted_asc l : StronglySorted (fun p q => score_desc p q = true) l -> asc (rev (map snd l)).
  Proof.
    induction 1 as [|p l Hs IH Hf]; simpl; [constructor|].
    assert (Hsn : forall (b : list S) x, asc b -> Forall (fun y => le y x) b -> asc (b ++ [x])).
    { clear. intros b x Hb Hx. induction Hb as [|y b Hb IH Hy]; simpl; [repeat constructor|].
      inversion Hx; subst. constructor; [apply IH; assumption|].
      apply Forall_app; split; [exact Hy|]. constructor; [assumption|constructor]. }
    apply Hsn; [exact IH|]. apply Forall_forall. intros y Hy. apply in_rev in Hy.
    apply in_map_iff in Hy as [q [<- Hq]]. rewrite Forall_forall in Hf. specialize (Hf q Hq).
    unfold score_desc in Hf. apply leb_le in Hf. exact Hf.
  Qed.

  Lemma score_desc_total : forall p q, score_desc p q = true \/ score_desc q p = true.
  Proof. intros p q. unfold score_desc. rewrite !leb_le. destruct (le_total (snd p) (snd q)); auto. Qed.
  Lemma score_desc_trans : forall p q r, score_desc p q = true -> score_desc q r = true -> score_desc p r = true.
  Proof. intros p q r. unfold score_desc. rewrite !leb_le. intros H1 H2. eapply le_trans; eassumption. Qed.

  Lemma ltb_negb_leb (x y : S) : ltb x y = negb (leb y x).
  Proof.
    destruct (ltb x y) eqn:E.
    - apply ltb_lt in E. destruct (leb y x) eqn:F; [|reflexivity]. apply leb_le in F.
      exfalso; exact (lt_not_le _ _ E F).
    - destruct (leb y x) eqn:F; [reflexivity|]. exfalso.
      assert (H : ~ le y x) by (rewrite <- leb_le; congruence). apply not_le_lt, ltb_lt in H. congruence.
  Qed.

  Lemma best_insert_isort p l : StronglySorted (fun p q => score_desc p q = true) l ->
    best_insert p l = isort score_desc (l ++ [p]).
  Proof.
    intros Hs. rewrite (isort_snoc _ score_desc_total score_desc_trans).
    rewrite (isort_sorted_id _ score_desc_total score_desc_trans) by exact Hs.
    unfold best_insert, score_desc. cbn [app]. f_equal. f_equal.
    apply filter_ext. intros q. apply ltb_negb_leb.
  Qed.

  Lemma best_insert_sorted p l : StronglySorted (fun p q => score_desc p q = true) l ->
    StronglySorted (fun p q => score_desc p q = true) (best_insert p l).
  Proof.
    intros Hs. rewrite best_insert_isort by exact Hs. apply isort_sorted; [apply score_desc_total|apply score_desc_trans].
  Qed.

  Lemma best_insert_length p l : length (best_insert p l) = Datatypes.S (length l).
  Proof.
    unfold best_insert. rewrite !app_length. cbn [length].
    induction l as [|q l IH]; simpl; [reflexivity|].
    rewrite ltb_negb_leb. destruct (leb (snd p) (snd q)); simpl; lia.
  Qed.

  (** filter on a sorted list is a prefix/suffix *)
  Lemma filter_prefix p l : StronglySorted (fun p q => score_desc p q = true) l ->
    filter (fun q => leb (snd p) (snd q)) l = firstn (length (filter (fun q => leb (snd p) (snd q)) l)) l /\
    filter (fun q => ltb (snd q) (snd p)) l = skipn (length (filter (fun q => leb (snd p) (snd q)) l)) l.
  Proof.
    induction 1 as [|q l Hs [IH1 IH2] Hf]; [split; reflexivity|]. cbn [filter].
    rewrite ltb_negb_leb. destruct (leb (snd p) (snd q)) eqn:E; cbn [negb length firstn skipn].
    - split; [f_equal; exact IH1|exact IH2].
    - assert (Hnil : filter (fun q => leb (snd p) (snd q)) l = []).
      { clear -Hf E. induction Hf as [|r l Hr Hf IH]; simpl; [reflexivity|].
        destruct (leb (snd p) (snd r)) eqn:F; [|exact IH]. exfalso. unfold score_desc in Hr.
        apply leb_le in Hr, F. assert (H : le (snd p) (snd q)) by (eapply le_trans; eassumption).
        apply leb_le in H. congruence. }
      rewrite Hnil in *. cbn [length firstn skipn] in *. split; [reflexivity|]. f_equal. exact IH2.
  Qed.

  Lemma nless_rev p l : nless (rev (map snd l)) (snd p) = length (filter (fun q => ltb (snd q) (snd p)) l).
  Proof.
    unfold nless. assert (Hr : forall (f : S -> bool) b, length (filter f (rev b)) = length (filter f b)).
    { intros f b. induction b as [|y b IH]; simpl; [reflexivity|]. rewrite filter_app, app_length, IH. simpl.
      destruct (f y); simpl; lia. }
    rewrite Hr. induction l as [|q l IH]; simpl; [reflexivity|]. destruct (ltb (snd q) (snd p)); simpl; congruence.
  Qed.

  Lemma insert_at_rev {B} k (x : B) b : (k <= length b)%nat ->
    insert_at (length b - k) x (rev b) = rev (firstn k b ++ [x] ++ skipn k b).
  Proof.
    intros Hk. unfold insert_at.
    assert (Hr : rev b = rev (skipn k b) ++ rev (firstn k b))
      by (rewrite <- rev_app_distr, firstn_skipn; reflexivity).
    assert (Hlen : (length b - k)%nat = length (rev (skipn k b)))
      by (rewrite rev_length, skipn_length; reflexivity).
    rewrite Hr, Hlen, firstn_app, skipn_app, Nat.sub_diag, firstn_all, skipn_all.
    cbn [firstn skipn]. rewrite app_nil_r, !rev_app_distr. cbn [rev app].
    rewrite <- app_assoc. reflexivity.
  Qed.

  Lemma firstn_map' {B C} (f : B -> C) k (b : list B) : firstn k (map f b) = map f (firstn k b).
  Proof. revert k; induction b; intros [|k]; simpl; congruence. Qed.
  Lemma skipn_map' {B C} (f : B -> C) k (b : list B) : skipn k (map f b) = map f (skipn k b).
  Proof. revert k; induction b; intros [|k]; simpl; congruence. Qed.

  Lemma insert_at_best {B} (f : A * S -> B) p l :
    StronglySorted (fun p q => score_desc p q = true) l ->
    insert_at (length (filter (fun q => ltb (snd q) (snd p)) l)) (f p) (rev (map f l)) =
    rev (map f (best_insert p l)).
  Proof.
    intros Hs. destruct (filter_prefix p l Hs) as [H1 H2].
    set (k := length (filter (fun q => leb (snd p) (snd q)) l)) in *.
    assert (Hk : (k <= length l)%nat).
    { unfold k. clear. induction l; simpl; [lia|]. destruct (leb _ _); simpl; lia. }
    rewrite H2, skipn_length.
    replace (length l - k)%nat with (length (map f l) - k)%nat by (rewrite map_length; reflexivity).
    rewrite insert_at_rev by (rewrite map_length; exact Hk).
    rewrite firstn_map', skipn_map'. unfold best_insert. rewrite H1, H2.
    rewrite !map_app. reflexivity.
  Qed.

  Lemma tl_rev {B} (b : list B) : tl (rev b) = rev (removelast b).
  Proof.
    destruct b as [|x b] using rev_ind; [reflexivity|].
    rewrite rev_app_distr, removelast_app by discriminate. cbn. rewrite app_nil_r. reflexivity.
  Qed.
  Lemma removelast_firstn' {B} (b : list B) n : length b = Datatypes.S n -> removelast b = firstn n b.
  Proof.
    intros H. destruct b as [|x b] using rev_ind; [discriminate|].
    rewrite app_length in H. cbn [length] in H.
    rewrite removelast_app by discriminate. cbn. rewrite app_nil_r.
    rewrite firstn_app. replace (n - length b)%nat with O by lia. cbn. rewrite app_nil_r.
    rewrite firstn_all2 by lia. reflexivity.
  Qed.
  Lemma removelast_map' {B C} (f : B -> C) b : removelast (map f b) = map f (removelast b).
  Proof. induction b as [|x [|y b] IH]; [reflexivity|reflexivity|]. cbn in *. rewrite IH. reflexivity. Qed.

  Lemma sorted_firstn {B} (R : B -> B -> Prop) b n : StronglySorted R b -> StronglySorted R (firstn n b).
  Proof.
    intros H. revert n; induction H as [|x b Hs IH Hf]; intros [|n]; cbn; try constructor; [apply IH|].
    apply Forall_forall. intros y Hy. rewrite Forall_forall in Hf. apply Hf.
    rewrite <- (firstn_skipn n b). apply in_or_app; left; exact Hy.
  Qed.

  Lemma sorted_last (R : A * S -> A * S -> Prop) q l r :
    StronglySorted R (l ++ [r]) -> In q l -> R q r.
  Proof.
    induction l as [|x l IH]; [intros _ []|]. cbn. intros H [<-|Hin].
    - inversion H as [|? ? _ Hf]; subst. rewrite Forall_forall in Hf. apply Hf. apply in_or_app; right; left; reflexivity.
    - inversion H; subst. apply IH; assumption.
  Qed.

  Lemma add_one_ok (N : nat) l p :
    (1 <= N)%nat -> (length l <= N)%nat -> StronglySorted (fun p q => score_desc p q = true) l ->
    add_one (Z.of_nat N) (Zlen l, rev (map snd l), rev (map fst l)) p =
    let l' := best_add N l p in Ok (Zlen l', rev (map snd l'), rev (map fst l')).
  Proof.
    intros HN Hl Hs. destruct p as [it s]. cbn [add_one]. unfold best_add.
    pose proof (best_insert_length (it, s) l) as Hbl.
    assert (Hrest : forall b : bool, b = false ->
       (if b then Ok (Zlen l, rev (map snd l), rev (map fst l)) else
        do i <- bisect_left (rev (map snd l)) s;
        let scores1 := insert_at i s (rev (map snd l)) in
        let items1 := insert_at i it (rev (map fst l)) in
        if Zlen l =? Z.of_nat N then Ok (Zlen l, tl scores1, tl items1)
        else Ok (Zlen l + 1, scores1, items1)) =
       let l' := firstn N (best_insert (it, s) l) in Ok (Zlen l', rev (map snd l'), rev (map fst l'))).
    { intros b ->. rewrite bisect_left_ok by (apply sorted_asc; exact Hs). cbn [bind].
      pose proof (nless_rev (it, s) l) as I0.
      pose proof (insert_at_best snd (it, s) l Hs) as I1.
      pose proof (insert_at_best fst (it, s) l Hs) as I2.
      cbn [fst snd] in I0, I1, I2. rewrite I0, I1, I2. cbv zeta.
      unfold Zlen. destruct (Z.eqb_spec (Z.of_nat (length l)) (Z.of_nat N)) as [E|E].
      - assert (length l = N) by lia. subst N.
        rewrite !tl_rev, !removelast_map', (removelast_firstn' _ (length l)) by exact Hbl.
        rewrite firstn_length, Hbl. f_equal. f_equal. f_equal. lia.
      - rewrite firstn_all2 by lia. rewrite Hbl. f_equal. f_equal. f_equal. lia. }
    destruct (Z.leb_spec (Z.of_nat N) (Zlen l)) as [Hc|Hc].
    - unfold Zlen in Hc. assert (Hlen : length l = N) by lia.
      destruct l as [|r l0] using rev_ind; [cbn in Hlen; lia|]. clear IHl0.
      rewrite map_app, rev_app_distr. cbn [map rev app].
      rewrite (py_get_nat _ 0 (snd r)) by (reflexivity || lia). cbn [bind].
      destruct (leb s (snd r)) eqn:E.
      + assert (Hfull : best_insert (it, s) (l0 ++ [r]) = (l0 ++ [r]) ++ [(it, s)]).
        { unfold best_insert. cbn [snd].
          assert (Hall : forall q, In q (l0 ++ [r]) -> leb s (snd q) = true).
          { intros q Hq. apply in_app_iff in Hq as [Hq|[<-|[]]]; [|exact E].
            pose proof (sorted_last _ q l0 r Hs Hq) as Hqr. unfold score_desc in Hqr.
            apply leb_le in Hqr, E. apply leb_le. eapply le_trans; eassumption. }
          assert (H1 : filter (fun q => leb s (snd q)) (l0 ++ [r]) = l0 ++ [r]).
          { clear -Hall. induction (l0 ++ [r]) as [|q b IH]; [reflexivity|]. cbn.
            rewrite (Hall q (or_introl eq_refl)), IH; [reflexivity|]. intros x Hx; apply Hall; right; exact Hx. }
          assert (H2 : filter (fun q => ltb (snd q) s) (l0 ++ [r]) = []).
          { clear -Hall. induction (l0 ++ [r]) as [|q b IH]; [reflexivity|]. cbn.
            rewrite ltb_negb_leb, (Hall q (or_introl eq_refl)). cbn. apply IH.
            intros x Hx; apply Hall; right; exact Hx. }
          rewrite H1, H2. reflexivity. }
        rewrite Hfull, <- Hlen, firstn_app, Nat.sub_diag. cbn [firstn]. rewrite app_nil_r, firstn_all.
        cbv zeta. rewrite !map_app, !rev_app_distr. reflexivity.
      + specialize (Hrest false eq_refl). cbv zeta in *. rewrite <- Hrest.
        rewrite !map_app, !rev_app_distr. reflexivity.
    - cbn [bind]. apply (Hrest false eq_refl).
  Qed.

  Lemma best_add_sorted N l p : StronglySorted (fun p q => score_desc p q = true) l ->
    StronglySorted (fun p q => score_desc p q = true) (best_add N l p).
  Proof. intros H. apply sorted_firstn, best_insert_sorted, H. Qed.
  Lemma best_add_length N l p : (length (best_add N l p) <= N)%nat.
  Proof. unfold best_add. rewrite firstn_length. lia. Qed.

  Lemma add_loop_ok N ps l :
    (1 <= N)%nat -> (length l <= N)%nat -> StronglySorted (fun p q => score_desc p q = true) l ->
    add_loop (Z.of_nat N) (Zlen l, rev (map snd l), rev (map fst l)) ps =
    let l' := fold_left (best_add N) ps l in Ok (Zlen l', rev (map snd l'), rev (map fst l')).
  Proof.
    intros HN. revert l; induction ps as [|p ps IH]; intros l Hl Hs; cbn [add_loop fold_left]; [reflexivity|].
    rewrite add_one_ok by assumption. cbv zeta. cbn [bind]. apply IH; [apply best_add_length|apply best_add_sorted, Hs].
  Qed.

  Lemma fold_add_inv N ps l :
    (length l <= N)%nat -> StronglySorted (fun p q => score_desc p q = true) l ->
    (length (fold_left (best_add N) ps l) <= N)%nat /\
    StronglySorted (fun p q => score_desc p q = true) (fold_left (best_add N) ps l).
  Proof.
    revert l; induction ps as [|p ps IH]; intros l Hl Hs; cbn [fold_left]; [auto|].
    apply IH; [apply best_add_length|apply best_add_sorted, Hs].
  Qed.

  Lemma nb_addmany_repr nb N l ps : nb_repr nb N l ->
    exists nb', nb_addmany nb ps = Ok nb' /\ nb_repr nb' N (fold_left (best_add N) ps l).
  Proof.
    intros (Hc & HN & Hl & Hsc & Hit & Hs). unfold nb_addmany. rewrite Hc, Hsc, Hit.
    replace (Zlen (rev (map snd l))) with (Zlen l) by (unfold Zlen; rewrite rev_length, map_length; reflexivity).
    rewrite add_loop_ok by assumption. cbv zeta. cbn [bind].
    replace (Zlen (rev (map snd (fold_left (best_add N) ps l)))) with (Zlen (fold_left (best_add N) ps l))
      by (unfold Zlen; rewrite rev_length, map_length; reflexivity).
    rewrite Z.eqb_refl. eexists; split; [reflexivity|].
    destruct (fold_add_inv N ps l Hl Hs) as [H1 H2].
    unfold nb_repr. cbn. splits; try assumption; reflexivity.
  Qed.

  Lemma nb_pop_repr nb N l : nb_repr nb N l ->
    match rev l with
    | [] => nb_pop_smallest nb = Raise IndexError
    | p :: _ => exists nb', nb_pop_smallest nb = Ok (fst p, snd p, nb') /\ nb_repr nb' N (removelast l)
    end.
  Proof.
    intros (Hc & HN & Hl & Hsc & Hit & Hs). unfold nb_pop_smallest. rewrite Hsc, Hit.
    destruct l as [|r l] using rev_ind; [reflexivity|]. clear IHl.
    rewrite !map_app, !rev_app_distr, removelast_app by discriminate. cbn. rewrite app_nil_r.
    eexists; split; [reflexivity|]. rewrite app_length in Hl. cbn in Hl.
    unfold nb_repr. cbn. splits; try assumption; try reflexivity; [lia|].
    apply (sorted_firstn _ _ (length l)) in Hs. rewrite firstn_app, Nat.sub_diag, firstn_all in Hs.
    cbn in Hs. rewrite app_nil_r in Hs. exact Hs.
  Qed.

  Lemma nb_run_repr os nb N l : nb_repr nb N l -> nb_run nb os = best_run N l os.
  Proof.
    revert nb l; induction os as [|o os IH]; intros nb l H; [reflexivity|]. cbn [nb_run best_run].
    destruct o as [it s|ps| | |]; cbn [nb_step best_step].
    - unfold nb_add. destruct (nb_addmany_repr nb N l [(it, s)] H) as [nb' [-> H']]. cbn in H'.
      f_equal. apply IH, H'.
    - destruct (nb_addmany_repr nb N l ps H) as [nb' [-> H']]. f_equal. apply IH, H'.
    - pose proof (nb_pop_repr nb N l H) as Hp. destruct (rev l) as [|p r].
      + rewrite Hp. f_equal. apply IH, H.
      + destruct Hp as [nb' [-> H']]. destruct p. f_equal. apply IH, H'.
    - f_equal; [f_equal; eapply nb_getbest_repr, H|]. apply IH, H.
    - f_equal; [|apply IH, H]. destruct H as (_ & _ & _ & Hsc & _). unfold nb_len, Zlen.
      rewrite Hsc, rev_length, map_length. reflexivity.
  Qed.

  Lemma nb_new_repr N : (1 <= N)%nat -> exists nb, nb_new (Z.of_nat N) = Ok nb /\ nb_repr nb N [].
  Proof.
    intros HN. unfold nb_new. replace (Z.of_nat N <? 1) with false by lia.
    eexists; split; [reflexivity|]. unfold nb_repr. cbn. splits; try reflexivity; try lia. constructor.
  Qed.

  (** Keeping the N best one by one = N first of the full stable sort. *)
  Lemma isort_firstn_snoc N l p :
    firstn N (isort score_desc (firstn N (isort score_desc l) ++ [p])) = firstn N (isort score_desc (l ++ [p])).
  Proof.
    pose proof (isort_sorted _ score_desc_total score_desc_trans l) as Hs.
    rewrite !(isort_snoc _ score_desc_total score_desc_trans).
    rewrite (isort_sorted_id _ score_desc_total score_desc_trans (firstn N _)) by (apply sorted_firstn, Hs).
    set (s := isort score_desc l) in *. clearbody s. clear l.
    revert N; induction Hs as [|q s Hs IH Hf]; intros N.
    - rewrite firstn_nil. reflexivity.
    - destruct N as [|N]; [reflexivity|]. cbn [firstn filter].
      destruct (score_desc q p) eqn:E; cbn [negb app].
      + cbn [firstn]. f_equal. apply IH.
      + assert (Hnil : forall b, (forall z, In z b -> In z s) -> filter (fun y => score_desc y p) b = []).
        { clear -Hf E. induction b as [|z b IH]; intros Hb; cbn; [reflexivity|].
          destruct (score_desc z p) eqn:Ez; [|apply IH; intros w Hw; apply Hb; right; exact Hw].
          rewrite Forall_forall in Hf. pose proof (Hf z (Hb z (or_introl eq_refl))) as Hqz.
          rewrite (score_desc_trans _ _ _ Hqz Ez) in E. discriminate. }
        assert (Hall : forall b, (forall z, In z b -> In z s) -> filter (fun y => negb (score_desc y p)) b = b).
        { clear -Hf E. induction b as [|z b IH]; intros Hb; cbn; [reflexivity|].
          destruct (score_desc z p) eqn:Ez; [|cbn; f_equal; apply IH; intros w Hw; apply Hb; right; exact Hw].
          rewrite Forall_forall in Hf. pose proof (Hf z (Hb z (or_introl eq_refl))) as Hqz.
          rewrite (score_desc_trans _ _ _ Hqz Ez) in E. discriminate. }
        assert (Hin : forall z, In z (firstn N s) -> In z s).
        { intros z Hz. rewrite <- (firstn_skipn N s). apply in_or_app; left; exact Hz. }
        rewrite (Hnil _ Hin), (Hall _ Hin), (Hnil s), (Hall s) by auto.
        cbn [app firstn]. f_equal. destruct N as [|N]; [reflexivity|].
        change (firstn (Datatypes.S N) (q :: firstn (Datatypes.S N) s)) with (q :: firstn N (firstn (Datatypes.S N) s)).
        change (firstn (Datatypes.S N) (q :: s)) with (q :: firstn N s).
        rewrite firstn_firstn. f_equal. f_equal. lia.
  Qed.

  Lemma fold_add_isort N ps l :
    fold_left (best_add N) ps (firstn N (isort score_desc l)) = firstn N (isort score_desc (l ++ ps)).
  Proof.
    revert l; induction ps as [|p ps IH]; intros l; cbn [fold_left].
    - rewrite app_nil_r. reflexivity.
    - unfold best_add at 2. rewrite best_insert_isort.
      + rewrite isort_firstn_snoc, IH. rewrite <- app_assoc. reflexivity.
      + apply sorted_firstn, isort_sorted; [apply score_desc_total|apply score_desc_trans].
  Qed.
End NB.

(** ** Statements used by the property file *)
Section Final.
  Context {A S : Type} `{OS : Ord S}.
  Implicit Types (nb : nbest A S) (l : list (A * S)).

  Lemma nb_exec_adds os nb N l :
    Forall (fun o => match o with NPop => False | _ => True end) os ->
    nb_repr nb N (firstn N (isort score_desc l)) ->
    nb_repr (nb_exec nb os) N (firstn N (isort score_desc (l ++ added os))).
  Proof.
    intros Ho. revert nb l; induction Ho as [|o os Ho Hos IH]; intros nb l H; cbn [nb_exec].
    - unfold added. cbn. rewrite app_nil_r. exact H.
    - destruct o as [it s|ps| | |]; cbn [nb_step]; try contradiction; unfold added; cbn [map concat].
      + unfold nb_add. destruct (nb_addmany_repr nb N _ [(it, s)] H) as [nb' [-> H']]. cbn [fst].
        rewrite fold_add_isort in H'. rewrite app_assoc. apply IH, H'.
      + destruct (nb_addmany_repr nb N _ ps H) as [nb' [-> H']]. cbn [fst].
        rewrite fold_add_isort in H'. rewrite app_assoc. apply IH, H'.
      + apply IH, H.
      + apply IH, H.
  Qed.

  Lemma nbest_getbest (N : Z) os : 1 <= N ->
    Forall (fun o => match o with NPop => False | _ => True end) os ->
    exists nb0, nb_new N = Ok nb0 /\
      exists s, stable_sort_of score_desc (added os) s /\
        nb_getbest (nb_exec nb0 os) = firstn (Z.to_nat N) s /\
        nb_len (nb_exec nb0 os) = Z.min N (Zlen (added os)).
  Proof.
    intros HN Ho. destruct (@nb_new_repr A S OS (Z.to_nat N) ltac:(lia)) as [nb0 [H0 Hr]].
    rewrite Z2Nat.id in H0 by lia. exists nb0. split; [exact H0|].
    exists (isort score_desc (added os)).
    pose proof (nb_exec_adds os nb0 (Z.to_nat N) [] Ho) as He. cbn [isort app] in He.
    rewrite firstn_nil in He. specialize (He Hr). split; [|split].
    - apply isort_stable; [apply score_desc_total|apply score_desc_trans].
    - eapply nb_getbest_repr, He.
    - destruct He as (_ & _ & _ & Hsc & _). unfold nb_len, Zlen. rewrite Hsc, rev_length, map_length, firstn_length.
      rewrite (Permutation_length (isort_perm score_desc (added os))). lia.
  Qed.

  Lemma nbest_refines (N : Z) os : 1 <= N ->
    exists nb0, nb_new N = Ok nb0 /\ nb_run nb0 os = best_run (Z.to_nat N) [] os.
  Proof.
    intros HN. destruct (@nb_new_repr A S OS (Z.to_nat N) ltac:(lia)) as [nb0 [H0 Hr]].
    rewrite Z2Nat.id in H0 by lia. exists nb0. split; [exact H0|]. apply nb_run_repr, Hr.
  Qed.

  Lemma nbest_new_bad (N : Z) : N < 1 -> @nb_new A S N = Raise ValueError.
  Proof. intros H. unfold nb_new. replace (N <? 1) with true by lia. reflexivity. Qed.

  (** The abstract machine: its state is always sorted, of length <= N, and a pop
      returns a pair of minimal score. *)
  Lemma best_step_inv N l o :
    (length l <= N)%nat -> StronglySorted (fun p q => score_desc p q = true) l ->
    (length (fst (best_step N l o)) <= N)%nat /\
    StronglySorted (fun p q => score_desc p q = true) (fst (best_step N l o)).
  Proof.
    intros Hl Hs. destruct o as [it s|ps| | |]; cbn [best_step fst]; auto.
    - split; [apply best_add_length|apply best_add_sorted, Hs].
    - apply fold_add_inv; assumption.
    - destruct l as [|r l] using rev_ind; [auto|]. clear IHl.
      rewrite rev_app_distr, removelast_app by discriminate. cbn. rewrite app_nil_r.
      rewrite app_length in Hl. cbn in Hl. split; [lia|].
      apply (sorted_firstn _ _ (length l)) in Hs. rewrite firstn_app, Nat.sub_diag, firstn_all in Hs.
      cbn in Hs. rewrite app_nil_r in Hs. exact Hs.
  Qed.

  Lemma best_exec_inv os N l :
    (length l <= N)%nat -> StronglySorted (fun p q => score_desc p q = true) l ->
    (length (best_exec N l os) <= N)%nat /\
    StronglySorted (fun p q => score_desc p q = true) (best_exec N l os).
  Proof.
    revert l; induction os as [|o os IH]; intros l Hl Hs; cbn [best_exec]; [auto|].
    destruct (best_step_inv N l o Hl Hs) as [H1 H2]. apply IH; assumption.
  Qed.

  Lemma best_pop_minimal N os p l' :
    best_step N (best_exec N [] os) NPop = (l', OPair p) ->
    Permutation (best_exec N [] os) (p :: l') /\
    Forall (fun q => le (snd p) (snd q)) (best_exec N [] os).
  Proof.
    destruct (best_exec_inv os N [] ltac:(cbn; lia) ltac:(constructor)) as [_ Hs].
    set (l := best_exec N [] os) in *. clearbody l. cbn [best_step].
    destruct l as [|r l] using rev_ind; [discriminate|]. clear IHl.
    rewrite rev_app_distr, removelast_app by discriminate. cbn. rewrite app_nil_r.
    intros H. injection H as <- <-. split.
    - symmetry. apply Permutation_cons_append.
    - apply Forall_app; split; [|repeat constructor; apply le_refl].
      apply Forall_forall. intros q Hq. pose proof (sorted_last _ q l r Hs Hq) as H.
      unfold score_desc in H. apply leb_le in H. exact H.
  Qed.

  (** C11 *)
  Lemma nb_popall_repr fuel nb N l : nb_repr nb N l -> (length l <= fuel)%nat ->
    exists nb', nb_popall fuel nb = (rev l, nb') /\ nb_repr nb' N [].
  Proof.
    revert nb l; induction fuel as [|n IH]; intros nb l H Hf; cbn [nb_popall].
    - destruct l; [|cbn in Hf; lia]. exists nb. auto.
    - pose proof (nb_pop_repr nb N l H) as Hp.
      destruct l as [|r l] using rev_ind.
      + cbn in Hp. rewrite Hp. exists nb; auto.
      + clear IHl. rewrite rev_app_distr, removelast_app in Hp by discriminate. cbn in Hp.
        rewrite app_nil_r in Hp. destruct Hp as [nb' [-> Hr]].
        rewrite app_length in Hf. cbn in Hf.
        destruct (IH nb' l Hr ltac:(lia)) as [nb'' [Hpa Hr']]. rewrite Hpa.
        exists nb''. rewrite rev_app_distr. cbn. destruct r; auto.
  Qed.

  Lemma nbest_pq (N : Z) ps : 1 <= N -> Zlen ps <= N ->
    exists nb0 nb1 out nb2, nb_new N = Ok nb0 /\ nb_addmany nb0 ps = Ok nb1 /\
      nb_popall (length ps) nb1 = (out, nb2) /\ nb_len nb2 = 0 /\
      nb_pop_smallest nb2 = Raise IndexError /\
      Permutation out ps /\ StronglySorted (fun p q => le (snd p) (snd q)) out.
  Proof.
    intros HN Hp. destruct (@nb_new_repr A S OS (Z.to_nat N) ltac:(lia)) as [nb0 [H0 Hr]].
    rewrite Z2Nat.id in H0 by lia.
    destruct (nb_addmany_repr nb0 _ [] ps Hr) as [nb1 [H1 Hr1]].
    pose proof (@fold_add_isort A S OS (Z.to_nat N) ps []) as Hf. cbn [isort app] in Hf.
    rewrite firstn_nil in Hf. rewrite Hf in Hr1.
    assert (Hperm : Permutation (isort score_desc ps) ps) by apply isort_perm.
    rewrite firstn_all2 in Hr1 by (rewrite (Permutation_length Hperm); unfold Zlen in Hp; lia).
    destruct (nb_popall_repr (length ps) nb1 _ _ Hr1) as [nb2 [H2 Hr2]].
    { rewrite (Permutation_length Hperm). lia. }
    exists nb0, nb1, (rev (isort score_desc ps)), nb2. splits; try assumption.
    - destruct Hr2 as (_ & _ & _ & Hsc & _). unfold nb_len. rewrite Hsc. reflexivity.
    - apply (nb_pop_repr nb2 _ [] Hr2).
    - rewrite <- Permutation_rev. exact Hperm.
    - pose proof (isort_sorted _ score_desc_total score_desc_trans ps) as Hs. clear -Hs.
      induction Hs as [|p s Hs IH Hf]; cbn [rev]; [constructor|].
      assert (Hsn : forall (b : list (A * S)) x, StronglySorted (fun p q => le (snd p) (snd q)) b ->
         Forall (fun y => le (snd y) (snd x)) b -> StronglySorted (fun p q => le (snd p) (snd q)) (b ++ [x])).
      { clear. intros b x Hb Hx. induction Hb as [|y b Hb IH Hy]; cbn; [repeat constructor|].
        inversion Hx; subst. constructor; [apply IH; assumption|].
        apply Forall_app; split; [exact Hy|]. constructor; [assumption|constructor]. }
      apply Hsn; [exact IH|]. apply Forall_forall. intros q Hq. apply in_rev in Hq.
      rewrite Forall_forall in Hf. specialize (Hf q Hq). unfold score_desc in Hf. apply leb_le in Hf. exact Hf.
  Qed.
End Final.
