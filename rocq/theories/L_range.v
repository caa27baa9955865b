(** * Lemmas about document ids out of range *)
From Verif Require Import S_range M_range L_field L_keyword SMap PyVal Ord.

Lemma some_inv {A} (x y : A) : Some x = Some y -> x = y.
Proof. intros H. injection H. auto. Qed.

Section L.
  Variable fits : Z -> bool.

  Lemma r_get_fit {X} (m : smap Z X) d : fits d = true -> r_get fits m d = get m d.
  Proof. unfold r_get. intros ->. reflexivity. Qed.
  Lemma r_get_unfit {X} (m : smap Z X) d : fits d = false -> r_get fits m d = None.
  Proof. unfold r_get. intros ->. reflexivity. Qed.

  (** ** Field index *)
  Section Field.
    Context {T : Type} `{OT : Ord T}.
    Notation pyval := (pyval T).
    Notation fstate := (fstate T).
    Implicit Types (st c : fstate) (v w : pyval) (d : Z).

    Definition posts (m : smap pyval (sset Z)) v : sset Z := match get m v with Some s => s | None => empty end.
    (** [st] is [c] with additional empty postings. *)
    Definition frel st c : Prop :=
      rev_ix st = rev_ix c /\ num_docs st = num_docs c /\ (forall v, posts (fwd st) v = posts (fwd c) v) /\
      (forall v s, get (fwd c) v = Some s -> is_empty s = false).
    Definition idle_in st v : Prop := get (fwd st) v = Some empty.

    Lemma bt_get_fine {X} (m : smap pyval X) v : (forall w, In w (keys m) -> key_ok v w = true) -> bt_get m v = Ok (get m v).
    Proof. intros H. unfold bt_get. rewrite (proj2 (forallb_forall _ _) H). reflexivity. Qed.
    Lemma frel_keys st c v : frel st c -> In v (keys (fwd c)) -> In v (keys (fwd st)).
    Proof.
      intros (_ & _ & H & Hne) Hin. apply keys_In in Hin as [s Hs]. apply keys_In. specialize (H v). unfold posts in H. rewrite Hs in H.
      destruct (get (fwd st) v) as [s'|]; [eauto|]. pose proof (Hne _ _ Hs) as E. subst s. cbn in E. discriminate.
    Qed.

    (** The values the index may hold are mutually orderable. *)
    Variable fine : pyval -> Prop.
    Hypothesis fine_ok : forall v w, fine v -> fine w -> key_ok v w = true.
    Definition fine_st st : Prop :=
      (forall v, In v (keys (fwd st)) -> fine v) /\ (forall d v, get (rev_ix st) d = Some v -> fine v).

    Lemma rf_unindex_rel d st c m : fits d = true -> frel st c -> finv c m -> fine_st st ->
      frel (fst (rf_unindex fits d st)) (fst (f_unindex d c)) /\ snd (rf_unindex fits d st) = Ok tt /\
      fine_st (fst (rf_unindex fits d st)) /\
      (forall v, idle_in (fst (rf_unindex fits d st)) v <-> idle_in st v).
    Proof.
      intros Hd Hr Hc [Hf1 Hf2]. pose proof Hr as (R1 & R2 & R3 & R4). unfold rf_unindex, f_unindex. rewrite (r_get_fit _ _ Hd), <- R1.
      destruct (get (rev_ix st) d) as [v|] eqn:Ed; [|cbn [fst snd]; unfold fine_st; tauto].
      unfold r_del. rewrite Hd, Ed. pose proof (Hf2 _ _ Ed) as Hv.
      assert (Hk : forall w, In w (keys (fwd st)) -> key_ok v w = true) by (intros w Hw; apply fine_ok; [exact Hv|apply Hf1, Hw]).
      rewrite (bt_get_fine _ _ Hk).
      rewrite bt_get_fine by (intros w Hw; apply Hk, (frel_keys _ _ _ Hr Hw)).
      pose proof Hc as (C1 & C2 & C3 & C4).
      assert (Hm : mem d (docs_with m v) = true) by (rewrite mem_docs_with, <- C1, <- R1, Ed; apply eqb_refl).
      assert (Hg : get (fwd c) v = Some (docs_with m v)).
      { rewrite C3. unfold posting. destruct (is_empty (docs_with m v)) eqn:E; [|reflexivity].
        rewrite (proj1 (is_empty_mem _) E d) in Hm. discriminate. }
      assert (Hg' : get (fwd st) v = Some (docs_with m v)).
      { specialize (R3 v). unfold posts in R3. rewrite Hg in R3. destruct (get (fwd st) v) as [s|]; [congruence|].
        rewrite <- R3 in Hm. discriminate. }
      rewrite Hg, Hg', Hm. unfold r_remove, r_del. rewrite Hd.
      assert (Hd' : exists u, get (docs_with m v) d = Some u) by (apply mem_get; exact Hm). destruct Hd' as [u Hu]. rewrite Hu.
      change (del d (docs_with m v)) with (srem d (docs_with m v)). set (s' := srem d (docs_with m v)). cbn [fst snd].
      assert (Hgets : forall f w, get (if is_empty s' then del v f else put v s' f) w =
                if eqb w v then (if is_empty s' then None else Some s') else get f w).
      { intros f w. destruct (is_empty s'); rewrite ?get_del, ?get_put; destruct (eqb w v); reflexivity. }
      split; [|split; [reflexivity|split]].
      - split; [reflexivity|]. cbn [rev_ix num_docs fwd]. split; [rewrite R2; reflexivity|]. split.
        + intros w. unfold posts. rewrite !Hgets. destruct (eqb w v); [reflexivity|]. apply R3.
        + intros w s. rewrite Hgets. destruct (eqb w v); [destruct (is_empty s') eqn:E; [discriminate|intros [= <-]; exact E]|apply R4].
      - split; cbn [fwd rev_ix].
        + intros w Hw. apply keys_In in Hw as [s Hs]. rewrite Hgets in Hs. destruct (eqb w v) eqn:E; [apply eqb_eq in E; subst; exact Hv|].
          apply Hf1, keys_In. eauto.
        + intros d' w. rewrite get_del. destruct (eqb d' d); [discriminate|]. apply Hf2.
      - intros w. unfold idle_in. cbn [fwd]. rewrite Hgets. destruct (eqb w v) eqn:E; [|reflexivity]. apply eqb_eq in E; subst w. rewrite Hg'.
        split.
        + destruct (is_empty s') eqn:Es; [discriminate|]. intros Ex. apply some_inv in Ex. rewrite Ex in Es. discriminate.
        + intros Ex. apply some_inv in Ex. rewrite Ex in Hm. discriminate.
    Qed.

    Lemma rf_insert_rel d v st c : fits d = true -> frel st c -> fine_st st -> fine v ->
      frel (fst (rf_insert fits d v st)) (fst (f_insert d v c)) /\ snd (rf_insert fits d v st) = Ok tt /\
      fine_st (fst (rf_insert fits d v st)) /\
      (forall w, idle_in (fst (rf_insert fits d v st)) w <-> idle_in st w /\ w <> v).
    Proof.
      intros Hd Hr [Hf1 Hf2] Hv. pose proof Hr as (R1 & R2 & R3 & R4). unfold rf_insert, f_insert.
      assert (Hk : forall w, In w (keys (fwd st)) -> key_ok v w = true) by (intros w Hw; apply fine_ok; [exact Hv|apply Hf1, Hw]).
      rewrite (bt_get_fine _ _ Hk).
      rewrite bt_get_fine by (intros w Hw; apply Hk, (frel_keys _ _ _ Hr Hw)).
      assert (E : (match get (fwd st) v with None => (put v empty (fwd st), empty) | Some s => (fwd st, s) end) =
                  ((match get (fwd st) v with None => put v empty (fwd st) | Some _ => fwd st end), posts (fwd st) v))
        by (unfold posts; destruct (get (fwd st) v); reflexivity). rewrite E. clear E.
      unfold r_insert, r_put. rewrite Hd. cbn [fst snd].
      change (match get (fwd c) v with Some s0 => s0 | None => empty end) with (posts (fwd c) v). rewrite <- R3.
      change (put d tt (posts (fwd st) v)) with (sadd d (posts (fwd st) v)).
      assert (Hgets : forall w, get (put v (sadd d (posts (fwd st) v)) (match get (fwd st) v with None => put v empty (fwd st) | Some _ => fwd st end)) w =
                 if eqb w v then Some (sadd d (posts (fwd st) v)) else get (fwd st) w).
      { intros w. rewrite get_put. destruct (eqb w v) eqn:E; [reflexivity|]. destruct (get (fwd st) v); [reflexivity|]. rewrite get_put, E. reflexivity. }
      split; [|split; [reflexivity|split]].
      - split; cbn [rev_ix num_docs fwd]; [rewrite R1; reflexivity|]. split; [rewrite R2; reflexivity|]. split.
        + intros w. unfold posts at 1. rewrite Hgets. unfold posts at 2. rewrite get_put. destruct (eqb w v); [reflexivity|]. apply R3.
        + intros w s. rewrite get_put. destruct (eqb w v); [intros [= <-]; apply sadd_nonempty|apply R4].
      - split; cbn [fwd rev_ix].
        + intros w Hw. apply keys_In in Hw as [s Hs]. rewrite Hgets in Hs. destruct (eqb w v) eqn:E; [apply eqb_eq in E; subst; exact Hv|].
          apply Hf1, keys_In. eauto.
        + intros d' w. rewrite get_put. destruct (eqb d' d); [intros [= <-]; exact Hv|]. apply Hf2.
      - intros w. unfold idle_in. cbn [fwd]. rewrite Hgets. destruct (eqb w v) eqn:E.
        + apply eqb_eq in E; subst. split; [|tauto]. intros Ex. apply some_inv in Ex. pose proof (sadd_nonempty d (posts (fwd st) v)) as Hx. rewrite Ex in Hx. discriminate.
        + apply eqb_neq in E. tauto.
    Qed.

    Lemma rf_index_rel d v st c m : fits d = true -> frel st c -> finv c m -> fine_st st -> fine v ->
      frel (fst (rf_index fits d v st)) (fst (f_index d v c)) /\ snd (rf_index fits d v st) = Ok tt /\
      fine_st (fst (rf_index fits d v st)) /\
      (forall w, idle_in (fst (rf_index fits d v st)) w <-> idle_in st w /\ w <> v).
    Proof.
      intros Hd Hr Hc Hf Hv. pose proof Hr as (R1 & R2 & R3 & R4). unfold rf_index, f_index. rewrite (r_get_fit _ _ Hd), <- R1.
      unfold mem at 1. destruct (get (rev_ix st) d) as [v0|] eqn:Ed; [|apply rf_insert_rel; assumption].
      assert (Hk : forall w, In w (keys (fwd st)) -> key_ok v w = true) by (intros w Hw; apply fine_ok; [exact Hv|apply Hf, Hw]).
      rewrite (bt_get_fine _ _ Hk).
      rewrite bt_get_fine by (intros w Hw; apply Hk, (frel_keys _ _ _ Hr Hw)).
      assert (E1 : match get (fwd st) v with Some s => match r_get fits s d with Some _ => true | None => false end | None => false end = mem d (posts (fwd st) v))
        by (unfold posts; destruct (get (fwd st) v) as [s|]; [rewrite (r_get_fit _ _ Hd)|]; reflexivity).
      assert (E2 : match get (fwd c) v with Some s => mem d s | None => false end = mem d (posts (fwd c) v))
        by (unfold posts; destruct (get (fwd c) v) as [s|]; reflexivity).
      rewrite E1, E2, <- R3. destruct (mem d (posts (fwd st) v)) eqn:Em.
      - cbn [fst snd]. split; [exact Hr|]. split; [reflexivity|]. split; [exact Hf|]. intros w. split; [|tauto].
        intros Hi. split; [exact Hi|]. intros ->. unfold idle_in in Hi. unfold posts in Em. rewrite Hi in Em. discriminate.
      - destruct (rf_unindex_rel d st c m Hd Hr Hc Hf) as (Ha & Hb & Hf' & He).
        destruct (rf_unindex fits d st) as [st1 r1]. destruct (f_unindex_inv d c m Hc) as [Hx _]. destruct (f_unindex d c) as [c1 r2].
        cbn [fst snd] in *. subst r1 r2. destruct (rf_insert_rel d v st1 c1 Hd Ha Hf' Hv) as (Hi1 & Hi2 & Hi3 & Hi4).
        split; [exact Hi1|]. split; [exact Hi2|]. split; [exact Hi3|]. intros w. rewrite Hi4, He. reflexivity.
    Qed.

    (** Under an id that does not fit *)
    Lemma rf_index_unfit d v st c : fits d = false -> frel st c -> fine_st st -> fine v ->
      frel (fst (rf_index fits d v st)) c /\ snd (rf_index fits d v st) = Raise TypeError /\
      fine_st (fst (rf_index fits d v st)) /\
      (forall w, idle_in (fst (rf_index fits d v st)) w <-> idle_in st w \/ (w = v /\ get (fwd c) v = None)).
    Proof.
      intros Hd Hr [Hf1 Hf2] Hv. pose proof Hr as (R1 & R2 & R3 & R4). unfold rf_index. rewrite (r_get_unfit _ _ Hd). unfold rf_insert.
      assert (Hk : forall w, In w (keys (fwd st)) -> key_ok v w = true) by (intros w Hw; apply fine_ok; [exact Hv|apply Hf1, Hw]).
      rewrite (bt_get_fine _ _ Hk). unfold r_insert, r_put. rewrite Hd.
      pose proof (R3 v) as Hp. unfold posts in Hp. destruct (get (fwd st) v) as [s|] eqn:Eg; cbn [fst snd].
      - split; [destruct st; exact Hr|]. split; [reflexivity|]. split; [split; assumption|]. intros w. unfold idle_in. cbn [fwd]. split; [tauto|].
        intros [H|[-> H]]; [exact H|]. rewrite H in Hp. rewrite Eg, Hp. reflexivity.
      - split; [|split; [reflexivity|split]].
        + split; [exact R1|]. split; [exact R2|]. split; [|exact R4]. cbn [fwd]. intros w. unfold posts at 1. rewrite get_put.
          destruct (eqb w v) eqn:E; [|apply R3]. apply eqb_eq in E; subst. rewrite <- R3. unfold posts. rewrite Eg. reflexivity.
        + split; cbn [fwd rev_ix]; [|exact Hf2]. intros w Hw. apply keys_In in Hw as [s Hs]. rewrite get_put in Hs.
          destruct (eqb w v) eqn:E; [apply eqb_eq in E; subst; exact Hv|]. apply Hf1, keys_In. eauto.
        + intros w. unfold idle_in. cbn [fwd]. rewrite get_put. destruct (eqb w v) eqn:E.
          * apply eqb_eq in E; subst. split; [|reflexivity]. intros _. right. split; [reflexivity|].
            destruct (get (fwd c) v) as [s|] eqn:Ec; [|reflexivity]. apply R4 in Ec. subst s. discriminate.
          * apply eqb_neq in E. tauto.
    Qed.

    (** ** Runs *)
    Notation held := (f_held fits).
    Notation idle := (f_idle fits).
    Lemma f_fitting_snoc (h : list (fop T)) o :
      f_fitting fits (h ++ [o]) = f_fitting fits h ++ f_fitting fits [o].
    Proof. apply filter_app. Qed.
    Lemma rf_run_snoc h o : rf_run fits (h ++ [o]) = fst (rf_step fits (rf_run fits h) o).
    Proof. unfold rf_run. rewrite fold_left_app. reflexivity. Qed.
    Lemma held_keys (h : list (fop T)) v : held h v <-> In v (keys (fwd (f_run (f_fitting fits h)))).
    Proof. symmetry. apply posting_keys, f_run_inv. Qed.
    Lemma held_get (h : list (fop T)) v : ~ held h v <-> get (fwd (f_run (f_fitting fits h))) v = None.
    Proof.
      rewrite held_keys, keys_In. destruct (get _ v) as [s|]; split; intros H; try reflexivity; try discriminate.
      - exfalso. apply H. eauto.
      - intros [x Hx]. discriminate.
    Qed.
    Lemma app_cons_snoc {A} (h h1 h2 : list A) (o x : A) : h ++ [o] = h1 ++ x :: h2 ->
      (h2 = [] /\ h = h1 /\ o = x) \/ exists h2', h2 = h2' ++ [o] /\ h = h1 ++ x :: h2'.
    Proof.
      destruct h2 as [|y h2'] using rev_ind.
      - intros E. apply app_inj_tail in E as [-> ->]. left; auto.
      - rewrite app_comm_cons, app_assoc. intros E. apply app_inj_tail in E as [-> ->]. right. eauto.
    Qed.
    Lemma idle_snoc (h : list (fop T)) o v : idle (h ++ [o]) v <->
      ~ held (h ++ [o]) v /\ ((exists d, o = FIndex d v /\ fits d = false) \/ (idle h v /\ o <> FClear)).
    Proof.
      split.
      - intros (h1 & d & h2 & E & Hd & Hc & Hh). split.
        + rewrite E. apply (Hh h2 []). symmetry. apply app_nil_r.
        + apply app_cons_snoc in E as [(-> & -> & ->)|(h2' & -> & ->)]; [left; eauto|]. right. split.
          * exists h1, d, h2'. split; [reflexivity|]. split; [exact Hd|]. split; [intros H; apply Hc, in_or_app; auto|].
            intros a b ->. apply (Hh a (b ++ [o])). rewrite app_assoc. reflexivity.
          * intros ->. apply Hc, in_or_app. right. left. reflexivity.
      - intros [Hh [(d & -> & Hd)|[(h1 & d & h2 & -> & Hd & Hc & Hp) Ho]]].
        + exists h, d, []. split; [reflexivity|]. split; [exact Hd|]. split; [intros []|]. intros a b E. symmetry in E.
          apply app_eq_nil in E as [-> _]. exact Hh.
        + exists h1, d, (h2 ++ [o]). split; [rewrite <- app_assoc; reflexivity|]. split; [exact Hd|]. split.
          * intros H. apply in_app_or in H as [H|[H|[]]]; auto.
          * intros a b E. destruct b as [|y b _] using rev_ind.
            -- rewrite app_nil_r in E. subst a. rewrite <- app_assoc in Hh. exact Hh.
            -- rewrite app_assoc in E. apply app_inj_tail in E as [E _]. apply (Hp a b E).
    Qed.
    Lemma idle_not_held (h : list (fop T)) v : idle h v -> ~ held h v.
    Proof. intros (h1 & d & h2 & -> & _ & _ & H). apply (H h2 []). symmetry. apply app_nil_r. Qed.

    Lemma rf_run_rel (h : list (fop T)) : (forall v, In v (values_of h) -> fine v) ->
      frel (rf_run fits h) (f_run (f_fitting fits h)) /\ fine_st (rf_run fits h) /\ (forall v, idle_in (rf_run fits h) v <-> idle h v).
    Proof.
      induction h as [|o h IH] using rev_ind; intros Hfine.
      - split; [|split].
        + split; [reflexivity|]. split; [reflexivity|]. split; [reflexivity|]. intros v s. change (fwd _) with (@empty pyval (sset Z) _). rewrite get_empty. discriminate.
        + split; [intros v []|]. intros d v. change (rev_ix _) with (@empty Z pyval _). rewrite get_empty. discriminate.
        + intros v. unfold idle_in. change (fwd _) with (@empty pyval (sset Z) _). rewrite get_empty. split; [discriminate|]. intros (h1 & d & h2 & E & _). destruct h1; discriminate.
      - assert (Hvo : values_of (h ++ [o]) = values_of h ++ values_of [o]) by (unfold values_of; rewrite map_app, concat_app; reflexivity).
        rewrite Hvo in Hfine. destruct IH as (Hr & Hf & Hi); [intros v Hv; apply Hfine, in_or_app; auto|].
        assert (Hfo : forall v, In v (values_of [o]) -> fine v) by (intros v Hv; apply Hfine, in_or_app; auto). clear Hfine Hvo.
        rewrite rf_run_snoc. pose proof (f_run_inv (f_fitting fits h)) as Hc.
        destruct o as [d v|d|]; cbn [rf_step].
        + assert (Hv : fine v) by (apply Hfo; cbn; auto). destruct (fits d) eqn:Hd.
          * assert (Ef : f_fitting fits (h ++ [FIndex d v]) = f_fitting fits h ++ [FIndex d v])
              by (rewrite f_fitting_snoc; cbn; rewrite Hd; reflexivity).
            destruct (rf_index_rel d v _ _ _ Hd Hr Hc Hf Hv) as (Ha & _ & Hb & He).
            rewrite Ef, f_run_snoc. split; [exact Ha|]. split; [exact Hb|]. intros w. rewrite He, Hi, idle_snoc.
            assert (Hcur : current (f_fitting fits (h ++ [FIndex d v])) = put d v (current (f_fitting fits h))).
            { rewrite Ef, current_snoc. cbn. replace (forallb _ _) with true; [reflexivity|]. symmetry. apply forallb_forall.
              intros w' Hw'. apply vals_In in Hw' as [d' Hd']. apply fine_ok; [exact Hv|]. apply (proj2 Hf d').
              destruct Hr as (-> & _). destruct Hc as (-> & _). exact Hd'. }
            split.
            -- intros [Hw Hne]. split; [|right; split; [exact Hw|discriminate]]. intros [d' Hd']. rewrite Hcur, get_put in Hd'.
               destruct (eqb d' d); [injection Hd' as <-; contradiction|]. apply (idle_not_held _ _ Hw). exists d'. exact Hd'.
            -- intros [Hnh [(d' & [= <- <-] & Hx)|[Hw _]]]; [congruence|]. split; [exact Hw|]. intros ->. apply Hnh. exists d.
               rewrite Hcur. apply get_put_same.
          * assert (Ef : f_fitting fits (h ++ [FIndex d v]) = f_fitting fits h)
              by (rewrite f_fitting_snoc; cbn; rewrite Hd; apply app_nil_r).
            destruct (rf_index_unfit d v _ _ Hd Hr Hf Hv) as (Ha & _ & Hb & He).
            rewrite Ef. split; [exact Ha|]. split; [exact Hb|]. intros w. rewrite He, Hi, idle_snoc.
            assert (Eh : forall w, held (h ++ [FIndex d v]) w <-> held h w) by (intros w'; unfold f_held; rewrite Ef; reflexivity).
            rewrite Eh. split.
            -- intros [Hw|[-> Hn]].
               ++ split; [apply idle_not_held, Hw|]. right. split; [exact Hw|discriminate].
               ++ split; [apply held_get, Hn|]. left. eauto.
            -- intros [Hn [(d' & [= <- <-] & _)|[Hw _]]]; [right; split; [reflexivity|apply held_get, Hn]|left; exact Hw].
        + destruct (fits d) eqn:Hd.
          * assert (Ef : f_fitting fits (h ++ [FUnindex d]) = f_fitting fits h ++ [FUnindex d])
              by (rewrite f_fitting_snoc; cbn; rewrite Hd; reflexivity).
            destruct (rf_unindex_rel d _ _ _ Hd Hr Hc Hf) as (Ha & _ & Hb & He).
            rewrite Ef, f_run_snoc. split; [exact Ha|]. split; [exact Hb|]. intros w. rewrite He, Hi, idle_snoc. split.
            -- intros Hw. split; [|right; split; [exact Hw|discriminate]]. intros [d' Hd']. rewrite Ef, current_snoc in Hd'. cbn [current_step] in Hd'.
               rewrite get_del in Hd'. destruct (eqb d' d); [discriminate|]. apply (idle_not_held _ _ Hw). exists d'. exact Hd'.
            -- intros [_ [(d' & E & _)|[Hw _]]]; [discriminate|exact Hw].
          * assert (Ef : f_fitting fits (h ++ [FUnindex d]) = f_fitting fits h)
              by (rewrite f_fitting_snoc; cbn; rewrite Hd; apply app_nil_r).
            assert (Es : rf_unindex fits d (rf_run fits h) = (rf_run fits h, Ok tt)) by (unfold rf_unindex; rewrite (r_get_unfit _ _ Hd); reflexivity).
            rewrite Ef, Es. cbn [fst]. split; [exact Hr|]. split; [exact Hf|]. intros w. rewrite Hi, idle_snoc.
            assert (Eh : forall w, held (h ++ [FUnindex d]) w <-> held h w) by (intros w'; unfold f_held; rewrite Ef; reflexivity).
            rewrite Eh. split.
            -- intros Hw. split; [apply idle_not_held, Hw|]. right. split; [exact Hw|discriminate].
            -- intros [_ [(d' & E & _)|[Hw _]]]; [discriminate|exact Hw].
        + assert (Ef : f_fitting fits (h ++ [FClear]) = f_fitting fits h ++ [FClear]) by (rewrite f_fitting_snoc; reflexivity).
          rewrite Ef, f_run_snoc. cbn [fst f_step]. split; [|split].
          * split; [reflexivity|]. split; [reflexivity|]. split; [reflexivity|]. intros v s. change (fwd _) with (@empty pyval (sset Z) _). rewrite get_empty. discriminate.
          * split; [intros v []|]. intros d v. change (rev_ix _) with (@empty Z pyval _). rewrite get_empty. discriminate.
          * intros v. unfold idle_in. change (fwd _) with (@empty pyval (sset Z) _). rewrite get_empty, idle_snoc. split; [discriminate|].
            intros [_ [(d & E & _)|[_ E]]]; [discriminate|congruence].
    Qed.

    (** ** Answers *)
    Lemma range_posts (m : smap pyval (sset Z)) lo hi :
      (forall w, In w (keys m) -> key_ok lo w = true) -> (forall w, In w (keys m) -> key_ok hi w = true) ->
      exists vs, bt_range m lo hi = Ok vs /\ forall d, mem d (multiunion vs) = true <-> exists v, inb lo hi v = true /\ mem d (posts m v) = true.
    Proof.
      intros Hl Hh. unfold bt_range.
      assert (Hno : forall d v, mem d (posts m v) = true -> exists s, get m v = Some s /\ mem d s = true).
      { intros d v. unfold posts. destruct (get m v) as [s|]; [eauto|discriminate]. }
      destruct (is_empty m) eqn:E.
      { eexists; split; [reflexivity|]. intros d. split; [discriminate|]. intros (v & _ & Hm). apply Hno in Hm as (s & Hs & _).
        rewrite (proj1 (is_empty_get _) E) in Hs. discriminate. }
      rewrite (proj2 (forallb_forall _ _) Hl), (proj2 (forallb_forall _ _) Hh), !orb_true_r. cbn [negb].
      destruct (existsb _ (keys m)) eqn:Ee; cbn [negb].
      - eexists; split; [reflexivity|]. intros d. rewrite mem_multiunion, existsb_exists. split.
        + intros (s & Hs & Hd). apply (vals_sfilter_In m (inb lo hi)) in Hs as (v & Hv & Hb). exists v. split; [exact Hb|]. unfold posts. rewrite Hv. exact Hd.
        + intros (v & Hb & Hm). apply Hno in Hm as (s & Hs & Hd). exists s. split; [|exact Hd]. apply (vals_sfilter_In m (inb lo hi)). eauto.
      - eexists; split; [reflexivity|]. intros d. split; [discriminate|]. intros (v & Hb & Hm). apply Hno in Hm as (s & Hs & _). exfalso.
        unfold inb in Hb. apply andb_true_iff in Hb as [Hb _].
        assert (Ht : existsb (fun k => is_none lo || leb lo k) (keys m) = true) by (apply existsb_exists; exists v; split; [apply keys_In; eauto|exact Hb]).
        congruence.
    Qed.
    Lemma apply_rel st c lo hi : frel st c ->
      (forall w, In w (keys (fwd st)) -> key_ok lo w = true) -> (forall w, In w (keys (fwd st)) -> key_ok hi w = true) ->
      f_apply (QTuple [lo; hi]) st = f_apply (QTuple [lo; hi]) c.
    Proof.
      intros Hr Hl Hh. destruct (range_posts (fwd st) lo hi Hl Hh) as (v1 & E1 & H1).
      destruct (range_posts (fwd c) lo hi) as (v2 & E2 & H2).
      1, 2: intros w Hw; (apply Hl || apply Hh); exact (frel_keys _ _ _ Hr Hw).
      cbn [f_apply]. rewrite E1, E2. cbn [bind]. f_equal. apply sset_ext. intros d. apply eq_true_iff_eq. rewrite H1, H2.
      destruct Hr as (_ & _ & R3 & _). split; intros (v & Hb & Hm); exists v; [rewrite <- R3|rewrite R3]; auto.
    Qed.
    Lemma strip_fwd st c : frel st c -> fwd c = sfilter (fun _ s => negb (is_empty s)) (fwd st).
    Proof.
      intros (_ & _ & R3 & R4). apply smap_ext. intros v. rewrite get_sfilter. specialize (R3 v). unfold posts in R3.
      destruct (get (fwd c) v) as [s|] eqn:E.
      - pose proof (R4 _ _ E) as Hs. destruct (get (fwd st) v) as [s'|]; [|subst s; discriminate]. subst s'. rewrite Hs. reflexivity.
      - destruct (get (fwd st) v) as [s'|]; [|reflexivity]. subst s'. reflexivity.
    Qed.
    Lemma sort_rel heuristic ov_lazy ov_nbest docids reverse limit st c : frel st c ->
      f_sort heuristic ov_lazy ov_nbest docids reverse limit st = f_sort heuristic ov_lazy ov_nbest docids reverse limit c.
    Proof.
      intros Hr. pose proof (strip_fwd _ _ Hr) as Hs. destruct Hr as (R1 & R2 & _). unfold f_sort. rewrite R1, R2.
      assert (E : forall ds, concat (map (fun s => selems (sinter ds s)) (vals (fwd st))) = concat (map (fun s => selems (sinter ds s)) (vals (fwd c)))).
      { intros ds. rewrite Hs. unfold vals. cbn [elts sfilter]. induction (elts (fwd st)) as [|[v s] l IH]; [reflexivity|]. cbn [map concat filter snd].
        rewrite IH. destruct (is_empty s) eqn:Ee; [|reflexivity]. apply is_empty_spec in Ee. subst s. cbn [negb].
        replace (sinter ds empty) with (@empty Z unit _); [reflexivity|]. apply sset_ext. intros k. rewrite mem_sinter. cbn. rewrite andb_false_r. reflexivity. }
      rewrite E. reflexivity.
    Qed.
    Lemma rf_step_result h o : (forall v, In v (values_of (h ++ [o])) -> fine v) ->
      snd (rf_step fits (rf_run fits h) o) = match o with FIndex d _ => if fits d then Ok tt else Raise TypeError | _ => Ok tt end.
    Proof.
      intros Hfine. assert (Hvo : values_of (h ++ [o]) = values_of h ++ values_of [o]) by (unfold values_of; rewrite map_app, concat_app; reflexivity).
      rewrite Hvo in Hfine. destruct (rf_run_rel h) as (Hr & Hf & _); [intros v Hv; apply Hfine, in_or_app; auto|].
      pose proof (f_run_inv (f_fitting fits h)) as Hc. destruct o as [d v|d|]; cbn [rf_step]; [| |reflexivity].
      - assert (Hv : fine v) by (apply Hfine, in_or_app; cbn; auto). destruct (fits d) eqn:Hd.
        + apply (rf_index_rel d v _ _ _ Hd Hr Hc Hf Hv).
        + apply (rf_index_unfit d v _ _ Hd Hr Hf Hv).
      - destruct (fits d) eqn:Hd; [apply (rf_unindex_rel d _ _ _ Hd Hr Hc Hf)|]. unfold rf_unindex. rewrite (r_get_unfit _ _ Hd). reflexivity.
    Qed.
  End Field.

  Section FieldProps.
    Context {T : Type} `{OT : Ord T}.
    Variable h : list (fop T).
    Hypothesis Ho : mutually_orderable h.
    Let fine v := In v (values_of h).
    Let fine_ok v w : fine v -> fine w -> key_ok v w = true.
    Proof. apply Ho. Qed.
    Lemma field_run : frel (rf_run fits h) (f_run (f_fitting fits h)) /\ fine_st fine (rf_run fits h) /\
      (forall v, idle_in (rf_run fits h) v <-> f_idle fits h v).
    Proof. apply (rf_run_rel fine fine_ok). auto. Qed.
    Lemma field_results h1 o h2 : h = h1 ++ o :: h2 ->
      snd (rf_step fits (rf_run fits h1) o) = match o with FIndex d _ => if fits d then Ok tt else Raise TypeError | _ => Ok tt end.
    Proof.
      intros E. apply (rf_step_result fine fine_ok). intros v Hv. unfold fine. rewrite E. change (o :: h2) with ([o] ++ h2). rewrite app_assoc.
      unfold values_of in *. rewrite (map_app _ (h1 ++ [o])), concat_app. apply in_or_app. left. exact Hv.
    Qed.
    Lemma field_apply lo hi : comparable lo h -> comparable hi h ->
      f_apply (QTuple [lo; hi]) (rf_run fits h) = f_apply (QTuple [lo; hi]) (f_run (f_fitting fits h)).
    Proof.
      destruct field_run as (Hr & [Hk _] & _). intros Hl Hh. apply (apply_rel _ _ _ _ Hr); intros w Hw; [apply Hl|apply Hh]; apply Hk, Hw.
    Qed.
    Lemma field_count : f_documentCount (rf_run fits h) = f_documentCount (f_run (f_fitting fits h)).
    Proof. apply field_run. Qed.
    Lemma field_sort heuristic ov_lazy ov_nbest docids reverse limit :
      (forallb fits docids = true -> rf_sort fits heuristic ov_lazy ov_nbest docids reverse limit (rf_run fits h) =
        f_sort heuristic ov_lazy ov_nbest docids reverse limit (f_run (f_fitting fits h))) /\
      (limit_ok limit -> f_documentCount (rf_run fits h) <> 0 -> forallb fits docids = false ->
        rf_sort fits heuristic ov_lazy ov_nbest docids reverse limit (rf_run fits h) = Raise TypeError).
    Proof.
      destruct field_run as (Hr & _). unfold rf_sort, r_set. split.
      - intros ->. cbn [bind]. rewrite (sort_rel _ _ _ _ _ _ _ _ Hr). destruct Hr as (_ & -> & _). unfold f_sort.
        destruct (match limit with Some k => k <? 1 | None => false end); [reflexivity|]. destruct (num_docs _ =? 0); reflexivity.
      - intros Hl Hn ->. replace (match limit with Some k => k <? 1 | None => false end) with false
          by (destruct limit as [k|]; [|reflexivity]; cbn in Hl; lia).
        unfold f_documentCount in Hn. destruct (Z.eqb_spec (num_docs (rf_run fits h)) 0); [contradiction|]. reflexivity.
    Qed.
    Lemma field_words : exists values, NoDup values /\ (forall v, In v values <-> f_held fits h v \/ f_idle fits h v) /\
      f_wordCount (rf_run fits h) = Zlen values.
    Proof.
      destruct field_run as (Hr & _ & Hi). exists (keys (fwd (rf_run fits h))). split; [apply keys_NoDup|]. split.
      - intros v. rewrite <- Hi, held_keys. unfold idle_in. split.
        + intros Hin. apply keys_In in Hin as [s Hs]. destruct (is_empty s) eqn:E; [right; apply is_empty_spec in E; subst; exact Hs|]. left.
          rewrite (strip_fwd _ _ Hr), keys_In, get_sfilter, Hs, E. cbn [negb]. eauto.
        + intros [H|H]; [exact (frel_keys _ _ _ Hr H)|apply keys_In; eauto].
      - unfold f_wordCount, Zsize, size, Zlen, keys. rewrite map_length. reflexivity.
    Qed.
  End FieldProps.

  (** ** Keyword index *)
  Section Keyword.
    Context {W : Type} `{OW : Ord W}.
    Variable normalize : list W -> list W.
    Implicit Types (st : kstate W) (m : smap Z (sset W)) (w : W) (d : Z) (fwd : smap W (bool * sset Z)).

    (** As [kinv] without [no_empty] *)
    Definition rkinv st m : Prop :=
      krev st = m /\ knum st = Zsize m /\ (forall w, postings (kfwd st) w = docs_kw m w) /\
      (forall d kw, get m d = Some kw -> is_empty kw = false).
    Definition kidle fwd w : Prop := exists b, get fwd w = Some (b, empty).

    Lemma some_pair_inv {A B} (a a' : A) (b b' : B) : Some (a, b) = Some (a', b') -> b = b'.
    Proof. intros H. inversion H. reflexivity. Qed.

    Lemma rk_insert_fit thr d ws fwd : fits d = true ->
      exists fwd', rk_insert_words fits thr d ws fwd = (fwd', Ok tt) /\
        (forall w, postings fwd' w = if existsb (eqb w) ws then sadd d (postings fwd w) else postings fwd w) /\
        (forall w, kidle fwd' w <-> kidle fwd w /\ ~ In w ws).
    Proof.
      intros Hd. revert fwd. induction ws as [|x ws IH]; intros fwd.
      { exists fwd. cbn. split; [reflexivity|]. split; [reflexivity|]. tauto. }
      cbn [rk_insert_words existsb].
      destruct (match get fwd x with None => (put x (false, empty) fwd, (false, empty)) | Some p => (fwd, p) end) as [fwd1 [tr s]] eqn:E1.
      assert (Hs : s = postings fwd x) by (unfold postings; destruct (get fwd x) as [[b s']|]; inversion E1; reflexivity).
      assert (Hf1 : forall w, eqb w x = false -> get fwd1 w = get fwd w).
      { intros w Hw. destruct (get fwd x) as [p|]; inversion E1; subst; [reflexivity|]. rewrite get_put, Hw. reflexivity. }
      unfold r_insert, r_put. rewrite Hd. change (put d tt s) with (sadd d s).
      set (fwd2 := put x (tr || (Zsize (sadd d s) >=? thr), sadd d s) fwd1).
      assert (Hp2 : forall w, postings fwd2 w = if eqb w x then sadd d (postings fwd w) else postings fwd w).
      { intros w. unfold postings at 1, fwd2. rewrite get_put. destruct (eqb w x) eqn:Ew; [apply eqb_eq in Ew; subst; reflexivity|].
        rewrite (Hf1 _ Ew). reflexivity. }
      assert (Hi2 : forall w, kidle fwd2 w <-> kidle fwd w /\ w <> x).
      { intros w. unfold kidle, fwd2. rewrite get_put. destruct (eqb w x) eqn:Ew.
        - apply eqb_eq in Ew; subst w. split; [|tauto]. intros [b Hb]. apply some_pair_inv in Hb.
          pose proof (sadd_nonempty d s) as Hx. rewrite Hb in Hx. discriminate.
        - rewrite (Hf1 _ Ew). apply eqb_neq in Ew. tauto. }
      destruct (IH fwd2) as (fwd' & -> & Hp & Hi). exists fwd'. split; [reflexivity|]. split.
      - intros w. rewrite Hp, Hp2. destruct (eqb w x); cbn [orb]; [|reflexivity].
        destruct (existsb (eqb w) ws); [|reflexivity]. apply sset_ext. intros k. rewrite !mem_sadd. destruct (eqb k d); reflexivity.
      - intros w. rewrite Hi, Hi2. cbn [In]. intuition congruence.
    Qed.

    Lemma rk_remove_fit d ws fwd : fits d = true -> NoDup ws -> (forall w, In w ws -> mem d (postings fwd w) = true) ->
      exists fwd', rk_remove_words fits d ws fwd = (fwd', Ok tt) /\
        (forall w, postings fwd' w = if existsb (eqb w) ws then srem d (postings fwd w) else postings fwd w) /\
        (forall w, kidle fwd' w <-> kidle fwd w).
    Proof.
      intros Hd. revert fwd. induction ws as [|x ws IH]; intros fwd Hnd Hin; cbn [rk_remove_words existsb].
      { exists fwd. split; [reflexivity|]. split; [reflexivity|]. tauto. }
      inversion Hnd as [|? ? Hnx Hnd']; subst.
      pose proof (Hin x (or_introl eq_refl)) as Hx. unfold postings in Hx.
      destruct (get fwd x) as [[tr s]|] eqn:E; [|discriminate]. cbn [snd] in Hx.
      unfold r_remove, r_del. rewrite Hd. pose proof Hx as Hg. apply mem_get in Hg as [u Hu]. rewrite Hu. change (del d s) with (srem d s).
      set (fwd1 := if is_empty (srem d s) then del x fwd else put x (tr, srem d s) fwd).
      assert (Hg1 : forall w, get fwd1 w = if eqb w x then (if is_empty (srem d s) then None else Some (tr, srem d s)) else get fwd w).
      { intros w. unfold fwd1. destruct (is_empty (srem d s)); rewrite ?get_del, ?get_put; destruct (eqb w x); reflexivity. }
      assert (H1 : forall w, postings fwd1 w = if eqb w x then srem d (postings fwd w) else postings fwd w).
      { intros w. unfold postings. rewrite Hg1. destruct (eqb w x) eqn:Ew; [|reflexivity]. apply eqb_eq in Ew; subst. rewrite E. cbn [snd].
        destruct (is_empty (srem d s)) eqn:Es; [apply is_empty_spec in Es; symmetry; exact Es|reflexivity]. }
      assert (H2 : forall w, kidle fwd1 w <-> kidle fwd w).
      { intros w. unfold kidle. rewrite Hg1. destruct (eqb w x) eqn:Ew; [|reflexivity]. apply eqb_eq in Ew; subst. rewrite E. split.
        - intros [b Hb]. destruct (is_empty (srem d s)) eqn:Es; [discriminate|]. apply some_pair_inv in Hb. rewrite Hb in Es. discriminate.
        - intros [b Hb]. apply some_pair_inv in Hb. rewrite Hb in Hx. discriminate. }
      destruct (IH fwd1 Hnd') as (fwd' & Hr & Hp & Hi).
      + intros w Hw. rewrite H1. destruct (eqb w x) eqn:Ew; [apply eqb_eq in Ew; subst; contradiction|]. apply Hin; right; exact Hw.
      + exists fwd'. split; [exact Hr|]. split.
        * intros w. rewrite Hp, H1. destruct (eqb w x) eqn:Ew; [|reflexivity]. cbn. apply eqb_eq in Ew; subst.
          destruct (existsb (eqb x) ws) eqn:Ex; [|reflexivity]. apply existsb_eqb_In in Ex. contradiction.
        * intros w. rewrite Hi. apply H2.
    Qed.

    Lemma rk_unindex_inv d st m : fits d = true -> rkinv st m ->
      rkinv (fst (rk_unindex fits d st)) (del d m) /\ snd (rk_unindex fits d st) = Ok tt /\
      (forall w, kidle (kfwd (fst (rk_unindex fits d st))) w <-> kidle (kfwd st) w).
    Proof.
      intros Hd (H1 & H2 & H4 & H5). unfold rk_unindex. rewrite (r_get_fit _ _ Hd), H1. destruct (get m d) as [kw|] eqn:E.
      2:{ cbn [fst snd]. rewrite del_absent by exact E. unfold rkinv. tauto. }
      destruct (rk_remove_fit d (selems kw) (kfwd st) Hd) as (fwd' & -> & Hp & Hi).
      - apply keys_NoDup.
      - intros w Hw. apply selems_In in Hw. rewrite H4, mem_docs_kw, E. exact Hw.
      - unfold r_del. rewrite Hd, E. cbn [fst snd]. split; [|split; [reflexivity|exact Hi]]. unfold rkinv; cbn [krev knum kfwd].
        split; [reflexivity|]. split; [rewrite (Zsize_del _ _ _ E), H2; reflexivity|]. split.
        + intros w. rewrite Hp, docs_kw_del, <- mem_set_of_list, set_of_list_selems, H4.
          destruct (mem w kw) eqn:Ew; [reflexivity|]. apply sset_ext. intros k. rewrite mem_srem, mem_docs_kw.
          destruct (eqb k d) eqn:Ek; [|reflexivity]. apply eqb_eq in Ek; subst. rewrite E. exact Ew.
        + intros d' kw' Hd'. rewrite get_del in Hd'. destruct (eqb d' d); [discriminate|]. eapply H5; exact Hd'.
    Qed.

    Lemma rk_index_inv d seq st m : fits d = true -> rkinv st m -> op_normal normalize (KIndex d seq) ->
      rkinv (fst (rk_index fits normalize d seq st)) (kw_step normalize m (KIndex d seq)) /\
      snd (rk_index fits normalize d seq st) = match seq with SeqStr => Raise TypeError | _ => Ok tt end /\
      (forall w, kidle (kfwd (fst (rk_index fits normalize d seq st))) w <->
         kidle (kfwd st) w /\ match seq with SeqList (x :: l) => ~ In w (normalize (x :: l)) | _ => True end).
    Proof.
      intros Hd Hi Hn. pose proof Hi as (H1 & H2 & H4 & H5). destruct seq as [|l]; cbn [rk_index kw_step fst snd].
      { split; [exact Hi|]. tauto. }
      rewrite (r_get_fit _ _ Hd), H1. destruct l as [|x l].
      { destruct (get m d) as [kw|] eqn:E.
        - rewrite (H5 _ _ E). destruct (rk_unindex_inv d st m Hd Hi) as (Ha & Hb & Hc). split; [exact Ha|]. split; [exact Hb|]. intros w. rewrite Hc. tauto.
        - cbn [fst snd]. rewrite del_absent by exact E. tauto. }
      cbn [op_normal] in Hn. assert (Hnn : normalize (x :: l) <> []) by (apply Hn; discriminate).
      assert (Hin : forall w, In w (normalize (x :: l)) <-> mem w (set_of_list (normalize (x :: l))) = true) by (intros w; symmetry; apply mem_set_of_list_In).
      set (nk := set_of_list (normalize (x :: l))) in *.
      assert (Hne : is_empty nk = false) by (apply set_of_list_nonempty, Hnn). clearbody nk.
      assert (HI : forall w, kidle (kfwd st) w -> is_empty (docs_kw m w) = true).
      { intros w [b Hb]. rewrite <- H4. unfold postings. rewrite Hb. reflexivity. }
      destruct (get m d) as [old|] eqn:E.
      - destruct (rk_remove_fit d (selems (mdiff old nk)) (kfwd st) Hd) as (fwd' & -> & Hp & Hi').
        + apply keys_NoDup.
        + intros w Hw. apply selems_In in Hw. rewrite mem_mdiff, andb_true_iff in Hw. rewrite H4, mem_docs_kw, E. apply Hw.
        + destruct (rk_insert_fit (threshold st) d (selems (mdiff nk old)) fwd' Hd) as (fwd2 & -> & Hp2 & Hi2).
          unfold rk_insert_reverse, r_put. rewrite Hne, Hd. cbn [fst snd]. split; [|split; [reflexivity|]].
          * unfold rkinv; cbn [krev knum kfwd]. split; [reflexivity|]. split; [rewrite H2; symmetry; eapply Zsize_put_old; exact E|]. split.
            -- intros w. rewrite Hp2, Hp, <- !mem_set_of_list, !set_of_list_selems, !mem_mdiff, docs_kw_put, H4.
               apply sset_ext. intros k. destruct (mem w nk) eqn:En, (mem w old) eqn:Eo; cbn [andb negb];
                 rewrite ?mem_sadd, ?mem_srem, ?mem_docs_kw; destruct (eqb k d) eqn:Ek; try reflexivity;
                 apply eqb_eq in Ek; subst; rewrite E; cbn; congruence.
            -- intros d' kw'. rewrite get_put. destruct (eqb d' d); [intros [= <-]; exact Hne|]. apply H5.
          * intros w. cbn [kfwd]. rewrite Hi2, Hi', Hin, selems_In, mem_mdiff. split; intros [Ha Hb]; (split; [exact Ha|]).
            -- intros Hw. apply Hb. rewrite Hw. destruct (mem w old) eqn:Eo; [|reflexivity]. exfalso.
               apply HI in Ha. pose proof (proj1 (is_empty_mem _) Ha d) as Hx. rewrite mem_docs_kw, E, Eo in Hx. discriminate.
            -- intros Hw. apply andb_true_iff in Hw as [Hw _]. auto.
      - destruct (rk_insert_fit (threshold st) d (selems nk) (kfwd st) Hd) as (fwd2 & -> & Hp2 & Hi2).
        unfold rk_insert_reverse, r_put. rewrite Hne, Hd. cbn [fst snd]. split; [|split; [reflexivity|]].
        * unfold rkinv; cbn [krev knum kfwd]. split; [reflexivity|]. split; [rewrite H2; symmetry; apply Zsize_put_new, E|]. split.
          -- intros w. rewrite Hp2, <- mem_set_of_list, set_of_list_selems, docs_kw_put, H4. destruct (mem w nk); [reflexivity|].
             apply sset_ext. intros k. rewrite mem_srem. destruct (eqb k d) eqn:Ek; [|reflexivity].
             apply eqb_eq in Ek; subst. rewrite mem_docs_kw, E. reflexivity.
          -- intros d' kw'. rewrite get_put. destruct (eqb d' d); [intros [= <-]; exact Hne|]. apply H5.
        * intros w. cbn [kfwd]. rewrite Hi2, Hin, selems_In. reflexivity.
    Qed.

    Lemma hd_least (l : list W) w ws : selems (set_of_list l) = w :: ws -> least w l.
    Proof.
      intros E. split.
      - apply mem_set_of_list_In, selems_In. rewrite E. left. reflexivity.
      - intros w' Hw'. apply mem_set_of_list_In, selems_In in Hw'. pose proof (elts_sorted (set_of_list l)) as Hs. unfold Ssorted in Hs.
        change (map fst (elts (set_of_list l))) with (selems (set_of_list l)) in Hs. rewrite E in Hs, Hw'.
        destruct Hw' as [->|Hw']; [apply le_refl|]. apply StronglySorted_inv in Hs as [_ Hf]. rewrite Forall_forall in Hf. apply lt_le, Hf, Hw'.
    Qed.
    Lemma least_unique (l : list W) w w' : least w l -> least w' l -> w = w'.
    Proof. intros [H1 H2] [H3 H4]. apply le_antisym; auto. Qed.

    Lemma rk_index_unfit d seq st m : fits d = false -> rkinv st m -> op_normal normalize (KIndex d seq) ->
      rkinv (fst (rk_index fits normalize d seq st)) m /\
      snd (rk_index fits normalize d seq st) = match seq with SeqList [] => Ok tt | _ => Raise TypeError end /\
      (forall w, kidle (kfwd (fst (rk_index fits normalize d seq st))) w <-> kidle (kfwd st) w \/
         (is_empty (docs_kw m w) = true /\ match seq with SeqList (x :: l) => least w (normalize (x :: l)) | _ => False end)).
    Proof.
      intros Hd Hi Hn. pose proof Hi as (H1 & H2 & H4 & H5). destruct seq as [|l]; cbn [rk_index fst snd].
      { split; [exact Hi|]. split; [reflexivity|]. intros w. tauto. }
      rewrite (r_get_unfit _ _ Hd). destruct l as [|x l].
      { cbn [fst snd]. split; [exact Hi|]. split; [reflexivity|]. intros w. tauto. }
      destruct (selems (set_of_list (normalize (x :: l)))) as [|w0 ws] eqn:El.
      { exfalso. cbn [op_normal] in Hn. pose proof (set_of_list_nonempty _ (Hn ltac:(discriminate))) as Hne.
        apply is_empty_false in Hne as [k [u Hk]]. assert (Hm : mem k (set_of_list (normalize (x :: l))) = true) by (unfold mem; rewrite Hk; reflexivity).
        apply selems_In in Hm. rewrite El in Hm. destruct Hm. }
      apply hd_least in El. cbn [rk_insert_words].
      assert (Hleast : forall w, least w (normalize (x :: l)) <-> w = w0) by (intros w; split; [intros Hw; eapply least_unique; eassumption|intros ->; exact El]).
      destruct (match get (kfwd st) w0 with None => (put w0 (false, empty) (kfwd st), (false, empty)) | Some p => (kfwd st, p) end) as [fwd1 [tr s]] eqn:E1.
      unfold r_insert, r_put. rewrite Hd. cbn [fst snd]. split; [|split; [reflexivity|]].
      - unfold rkinv; cbn [krev knum kfwd]. split; [exact H1|]. split; [exact H2|]. split; [|exact H5]. intros w. rewrite <- H4. unfold postings.
        destruct (get (kfwd st) w0) as [p|] eqn:Eg; inversion E1; subst; [reflexivity|]. rewrite get_put. destruct (eqb w w0) eqn:Ew; [|reflexivity].
        apply eqb_eq in Ew; subst. rewrite Eg. reflexivity.
      - intros w. cbn [kfwd]. rewrite Hleast, <- H4. unfold kidle, postings.
        destruct (get (kfwd st) w0) as [[b s0]|] eqn:Eg; inversion E1; subst fwd1.
        + split; [tauto|]. intros [H|[He ->]]; [exact H|]. rewrite Eg in He |- *. cbn [snd] in He. apply is_empty_spec in He. subst. eauto.
        + rewrite get_put. destruct (eqb w w0) eqn:Ew.
          * apply eqb_eq in Ew; subst. split; [|eauto]. intros _. right. rewrite Eg. split; reflexivity.
          * apply eqb_neq in Ew. tauto.
    Qed.

    (** *** Histories *)
    Local Notation kheld := (k_held fits normalize).
    Local Notation kidles := (k_idle fits normalize).
    Lemma kidle_snoc (h : list (kop W)) o w : kidles (h ++ [o]) w <->
      ~ kheld (h ++ [o]) w /\ ((exists d l, o = KIndex d (SeqList l) /\ fits d = false /\ l <> [] /\ least w (normalize l)) \/ (kidles h w /\ o <> KClear)).
    Proof.
      split.
      - intros (h1 & d & l & h2 & E & Hd & Hl & Hw & Hc & Hh). split.
        + rewrite E. apply (Hh h2 []). symmetry. apply app_nil_r.
        + apply app_cons_snoc in E as [(-> & -> & ->)|(h2' & -> & ->)]; [left; eauto 7|]. right. split.
          * exists h1, d, l, h2'. split; [reflexivity|]. split; [exact Hd|]. split; [exact Hl|]. split; [exact Hw|]. split; [intros H; apply Hc, in_or_app; auto|].
            intros a b ->. apply (Hh a (b ++ [o])). rewrite app_assoc. reflexivity.
          * intros ->. apply Hc, in_or_app. right. left. reflexivity.
      - intros [Hh [(d & l & -> & Hd & Hl & Hw)|[(h1 & d & l & h2 & -> & Hd & Hl & Hw & Hc & Hp) Ho]]].
        + exists h, d, l, []. split; [reflexivity|]. split; [exact Hd|]. split; [exact Hl|]. split; [exact Hw|]. split; [intros []|]. intros a b E. symmetry in E.
          apply app_eq_nil in E as [-> _]. exact Hh.
        + exists h1, d, l, (h2 ++ [o]). split; [rewrite <- app_assoc; reflexivity|]. split; [exact Hd|]. split; [exact Hl|]. split; [exact Hw|]. split.
          * intros H. apply in_app_or in H as [H|[H|[]]]; auto.
          * intros a b E. destruct b as [|y b _] using rev_ind.
            -- rewrite app_nil_r in E. subst a. rewrite <- app_assoc in Hh. exact Hh.
            -- rewrite app_assoc in E. apply app_inj_tail in E as [E _]. apply (Hp a b E).
    Qed.
    Lemma kidle_not_held (h : list (kop W)) w : kidles h w -> ~ kheld h w.
    Proof. intros (h1 & d & l & h2 & -> & _ & _ & _ & _ & H). apply (H h2 []). symmetry. apply app_nil_r. Qed.
    Lemma kheld_docs (h : list (kop W)) w : kheld h w <-> is_empty (docs_kw (keywords normalize (k_fitting fits h)) w) = false.
    Proof.
      unfold k_held. set (m := keywords normalize (k_fitting fits h)). split.
      - intros (d & kw & E & Hw). destruct (is_empty (docs_kw m w)) eqn:He; [|reflexivity].
        pose proof (proj1 (is_empty_mem _) He d) as Hx. rewrite mem_docs_kw, E, Hw in Hx. discriminate.
      - intros He. apply is_empty_false in He as [d [u Hd]]. assert (Hm : mem d (docs_kw m w) = true) by (unfold mem; rewrite Hd; reflexivity).
        rewrite mem_docs_kw in Hm. destruct (get m d) as [kw|] eqn:E; [|discriminate]. eauto.
    Qed.

    Definition k_about (o : kop W) : bool := match o with KIndex d _ | KUnindex d => fits d | _ => true end.
    Lemma keywords_snoc (h : list (kop W)) o :
      keywords normalize (k_fitting fits (h ++ [o])) =
      if k_about o then kw_step normalize (keywords normalize (k_fitting fits h)) o else keywords normalize (k_fitting fits h).
    Proof.
      unfold k_fitting. rewrite filter_app. cbn [filter]. change (match o with KIndex d _ | KUnindex d => fits d | _ => true end) with (k_about o).
      destruct (k_about o); [|rewrite app_nil_r; reflexivity]. unfold keywords. rewrite fold_left_app. reflexivity.
    Qed.
    Lemma rk_run_snoc (h : list (kop W)) o : rk_run fits normalize (h ++ [o]) = fst (rk_step fits normalize (rk_run fits normalize h) o).
    Proof. unfold rk_run. rewrite fold_left_app. reflexivity. Qed.

    Lemma rk_step_inv (h : list (kop W)) o st : op_normal normalize o ->
      rkinv st (keywords normalize (k_fitting fits h)) -> (forall w, kidle (kfwd st) w <-> kidles h w) ->
      rkinv (fst (rk_step fits normalize st o)) (keywords normalize (k_fitting fits (h ++ [o]))) /\
      (forall w, kidle (kfwd (fst (rk_step fits normalize st o))) w <-> kidles (h ++ [o]) w) /\
      snd (rk_step fits normalize st o) =
        match o with KIndex _ SeqStr => Raise TypeError | KIndex d (SeqList (_ :: _)) => if fits d then Ok tt else Raise TypeError | _ => Ok tt end.
    Proof.
      intros Hn Hi Hk. rewrite keywords_snoc.
      assert (Hkeep : forall w, k_about o = false \/ (forall d, match get (kw_step normalize (keywords normalize (k_fitting fits h)) o) d with Some kw => mem w kw | None => false end = true ->
                          match get (keywords normalize (k_fitting fits h)) d with Some kw => mem w kw | None => false end = true) ->
                kidles h w -> ~ kheld (h ++ [o]) w).
      { intros w Hx Hw Hh. apply (kidle_not_held _ _ Hw). unfold k_held in Hh |- *. rewrite keywords_snoc in Hh. destruct (k_about o) eqn:Ea; [|exact Hh].
        destruct Hx as [Hx|Hx]; [discriminate|]. destruct Hh as (d & kw & E & Hm). specialize (Hx d). rewrite E in Hx. specialize (Hx Hm).
        destruct (get (keywords normalize (k_fitting fits h)) d) as [kw'|] eqn:E'; [|discriminate]. eauto. }
      destruct o as [d seq|d| | |n]; cbn [k_about rk_step] in *.
      - destruct (fits d) eqn:Hd.
        + destruct (rk_index_inv d seq st _ Hd Hi Hn) as (Ha & Hb & Hc). split; [exact Ha|]. split.
          * intros w. rewrite Hc, Hk, kidle_snoc. split.
            -- intros [Hw Hs]. split; [|right; split; [exact Hw|discriminate]]. apply Hkeep; [right|exact Hw]. intros d'.
               destruct seq as [|[|x l]]; cbn [kw_step]; [auto| |].
               ++ rewrite get_del. destruct (eqb d' d); [discriminate|auto].
               ++ rewrite get_put. destruct (eqb d' d); [|auto]. intros Hm. apply mem_set_of_list_In in Hm. contradiction.
            -- intros [Hnh [(d' & l & [= <- ->] & Hx & _)|[Hw _]]]; [congruence|]. split; [exact Hw|].
               destruct seq as [|[|x l]]; [exact I|exact I|]. intros Hin. apply Hnh. unfold k_held. rewrite keywords_snoc. cbn [k_about kw_step]. rewrite Hd.
               exists d, (set_of_list (normalize (x :: l))). split; [apply get_put_same|]. apply mem_set_of_list_In, Hin.
          * rewrite Hb. destruct seq as [|[|x l]]; reflexivity.
        + destruct (rk_index_unfit d seq st _ Hd Hi Hn) as (Ha & Hb & Hc). split; [exact Ha|]. split.
          * intros w. rewrite Hc, Hk, kidle_snoc.
            assert (Eh : kheld (h ++ [KIndex d seq]) w <-> kheld h w) by (unfold k_held; rewrite keywords_snoc; cbn [k_about]; rewrite Hd; reflexivity).
            rewrite Eh, kheld_docs. split.
            -- intros [Hw|[He Hs]].
               ++ split; [|right; split; [exact Hw|discriminate]]. rewrite <- kheld_docs. apply kidle_not_held, Hw.
               ++ split; [congruence|]. left. destruct seq as [|[|x l]]; [destruct Hs|destruct Hs|]. exists d, (x :: l). split; [reflexivity|]. split; [exact Hd|]. split; [discriminate|exact Hs].
            -- intros [Hnh [(d' & l & [= <- ->] & _ & Hl & Hw)|[Hw _]]]; [|left; exact Hw]. right. split.
               ++ destruct (is_empty _); [reflexivity|]. contradiction Hnh. reflexivity.
               ++ destruct l; [contradiction Hl; reflexivity|exact Hw].
          * rewrite Hb. destruct seq as [|[|x l]]; reflexivity.
      - destruct (fits d) eqn:Hd.
        + destruct (rk_unindex_inv d st _ Hd Hi) as (Ha & Hb & Hc). split; [exact Ha|]. split; [|exact Hb]. intros w. rewrite Hc, Hk, kidle_snoc. split.
          * intros Hw. split; [|right; split; [exact Hw|discriminate]]. apply Hkeep; [right|exact Hw]. intros d'. cbn [kw_step]. rewrite get_del.
            destruct (eqb d' d); [discriminate|auto].
          * intros [_ [(d' & l & E & _)|[Hw _]]]; [discriminate|exact Hw].
        + unfold rk_unindex. rewrite (r_get_unfit _ _ Hd). cbn [fst snd]. split; [exact Hi|]. split; [|reflexivity]. intros w. rewrite Hk, kidle_snoc. split.
          * intros Hw. split; [|right; split; [exact Hw|discriminate]]. apply Hkeep; [left; reflexivity|exact Hw].
          * intros [_ [(d' & l & E & _)|[Hw _]]]; [discriminate|exact Hw].
      - cbn [fst snd kw_step]. split; [|split; [|reflexivity]].
        + unfold rkinv, k_clear; cbn [krev knum kfwd]. split; [reflexivity|]. split; [reflexivity|]. split.
          * intros w. unfold postings. rewrite get_empty. symmetry. apply is_empty_spec, is_empty_mem. intros k. rewrite mem_docs_kw, get_empty. reflexivity.
          * intros d kw. rewrite get_empty. discriminate.
        + intros w. unfold kidle, k_clear; cbn [kfwd]. rewrite kidle_snoc. split.
          * intros [b Hb]. rewrite get_empty in Hb. discriminate.
          * intros [_ [(d' & l & E & _)|[_ E]]]; [discriminate|congruence].
      - cbn [fst snd kw_step]. destruct Hi as (H1 & H2 & H4 & H5). split; [|split; [|reflexivity]].
        + unfold rkinv. split; [exact H1|]. split; [exact H2|]. split; [|exact H5]. intros w. rewrite <- H4. apply postings_optimize.
        + intros w. rewrite kidle_snoc. unfold kidle, k_optimize; cbn [kfwd]. rewrite get_mmap. rewrite <- Hk. split.
          * intros [b Hb]. assert (Hw : kidle (kfwd st) w).
            { unfold kidle. destruct (get (kfwd st) w) as [[tr s]|]; [|discriminate]. exists tr. f_equal. f_equal. destruct (Zsize s >=? threshold st), tr; cbn in Hb; apply some_pair_inv in Hb; exact Hb. }
            split; [|right; split; [exact Hw|discriminate]]. apply Hkeep; [right|apply Hk, Hw]. intros d'. auto.
          * intros [_ [(d' & l & E & _)|[[b Hb] _]]]; [discriminate|]. rewrite Hb. destruct (Zsize (@empty Z unit _) >=? threshold st), b; cbn; eauto.
      - cbn [fst snd kw_step kfwd]. split; [exact Hi|]. split; [|reflexivity]. intros w. rewrite Hk, kidle_snoc. split.
        + intros Hw. split; [|right; split; [exact Hw|discriminate]]. apply Hkeep; [right|exact Hw]. auto.
        + intros [_ [(d' & l & E & _)|[Hw _]]]; [discriminate|exact Hw].
    Qed.

    Lemma rk_run_inv (h : list (kop W)) : normal_history normalize h ->
      rkinv (rk_run fits normalize h) (keywords normalize (k_fitting fits h)) /\ (forall w, kidle (kfwd (rk_run fits normalize h)) w <-> kidles h w).
    Proof.
      induction h as [|o h IH] using rev_ind; intros Hn.
      - split.
        + unfold rkinv, rk_run, k_new; cbn [fold_left krev knum kfwd]. split; [reflexivity|]. split; [reflexivity|]. split.
          * intros w. unfold postings. rewrite get_empty. symmetry. apply is_empty_spec, is_empty_mem. intros k. rewrite mem_docs_kw. change (keywords _ _) with (@empty Z (sset W) _). rewrite get_empty. reflexivity.
          * intros d kw. change (keywords _ _) with (@empty Z (sset W) _). rewrite get_empty. discriminate.
        + intros w. unfold kidle. change (kfwd _) with (@empty W (bool * sset Z) _). split.
          * intros [b Hb]. rewrite get_empty in Hb. discriminate.
          * intros (h1 & d & l & h2 & E & _). destruct h1; discriminate.
      - apply Forall_app in Hn as [Hn Ho]. inversion Ho; subst. destruct (IH Hn) as [Hi Hk]. rewrite rk_run_snoc.
        destruct (rk_step_inv h o _ ltac:(assumption) Hi Hk) as (Ha & Hb & _). auto.
    Qed.

    Lemma k_fitting_normal (h : list (kop W)) : normal_history normalize h -> normal_history normalize (k_fitting fits h).
    Proof. intros Hn. apply Forall_forall. intros o Ho. apply filter_In in Ho as [Ho _]. exact (proj1 (Forall_forall _ _) Hn o Ho). Qed.

    Lemma keyword_results (h : list (kop W)) o : normal_history normalize (h ++ [o]) ->
      snd (rk_step fits normalize (rk_run fits normalize h) o) =
        match o with KIndex _ SeqStr => Raise TypeError | KIndex d (SeqList (_ :: _)) => if fits d then Ok tt else Raise TypeError | _ => Ok tt end.
    Proof.
      intros Hn. apply Forall_app in Hn as [Hn Ho]. inversion Ho; subst. destruct (rk_run_inv h Hn) as [Hi Hk].
      destruct (rk_step_inv h o _ ltac:(assumption) Hi Hk) as (_ & _ & Hc). exact Hc.
    Qed.
    Lemma keyword_answers (h : list (kop W)) : normal_history normalize h ->
      (forall q op, k_search normalize q op (rk_run fits normalize h) = k_search normalize q op (k_run normalize (k_fitting fits h))) /\
      k_documentCount (rk_run fits normalize h) = k_documentCount (k_run normalize (k_fitting fits h)) /\
      (forall d, rk_has_doc fits d (rk_run fits normalize h) = fits d && k_has_doc d (k_run normalize (k_fitting fits h))).
    Proof.
      intros Hn. destruct (rk_run_inv h Hn) as [Hi _]. pose proof (k_run_inv normalize _ (k_fitting_normal h Hn)) as Hc. split; [|split].
      - intros q op. rewrite (k_search_sets _ _ _ _ _ Hc). unfold k_search. rewrite query_words_asked. f_equal. apply map_ext. intros w. destruct Hi as (_ & _ & H4 & _). apply H4.
      - unfold k_documentCount. destruct Hi as (_ & -> & _), Hc as (_ & -> & _). reflexivity.
      - intros d. unfold rk_has_doc, k_has_doc, mem, r_get. destruct Hi as (-> & _), Hc as (-> & _). destruct (fits d); [|reflexivity]. cbn [andb].
        destruct (get _ d); reflexivity.
    Qed.
    Lemma keyword_words (h : list (kop W)) : normal_history normalize h ->
      exists words, NoDup words /\ (forall w, In w words <-> kheld h w \/ kidles h w) /\ k_wordCount (rk_run fits normalize h) = Zlen words.
    Proof.
      intros Hn. destruct (rk_run_inv h Hn) as [(_ & _ & H4 & _) Hk]. exists (keys (kfwd (rk_run fits normalize h))). split; [apply keys_NoDup|]. split.
      - intros w. rewrite <- Hk, kheld_docs, <- H4, keys_In. unfold kidle, postings. split.
        + intros [[b s] Hs]. rewrite Hs. cbn [snd]. destruct (is_empty s) eqn:E; [|left; reflexivity]. right. apply is_empty_spec in E. subst. eauto.
        + intros [H|[b Hb]]; [|eauto]. destruct (get _ w) as [p|]; [eauto|discriminate].
      - unfold k_wordCount, Zsize, size, Zlen, keys. rewrite map_length. reflexivity.
    Qed.
  End Keyword.

  (** ** Topic index *)
  Section Topic.
    Context {I : Type} `{OI : Ord I} {E C : Type}.
    Variable eval : E -> Z -> C -> evres.
    Implicit Types (st : smap I (filt I E)) (f : filt I E) (h : list (top I E C)).

    Lemma rt_each_index d c ids st : fits d = true -> rt_each (rt_index_one fits eval d c) ids st = index_filters eval d c ids st.
    Proof.
      intros Hd. revert st. induction ids as [|i ids IH]; intros st; cbn [rt_each index_filters]; [reflexivity|].
      destruct (get st i) as [f|]; [|apply IH].
      assert (Hf : rt_index_one fits eval d c f = filt_index eval d c f).
      { unfold rt_index_one, filt_index, r_insert, r_put. rewrite Hd. destruct (f_python f), (eval (f_expr f) d c); reflexivity. }
      rewrite Hf. destruct (filt_index eval d c f); [apply IH|reflexivity].
    Qed.
    Lemma put_same {K V} `{Ord K} (m : smap K V) k v : get m k = Some v -> put k v m = m.
    Proof. intros Hk. apply smap_ext. intros k'. rewrite get_put. destruct (eqb k' k) eqn:Ek; [apply eqb_eq in Ek; subst; auto|reflexivity]. Qed.
    Lemma rt_each_unfit_index d c ids st : fits d = false ->
      fst (rt_each (rt_index_one fits eval d c) ids st) = st /\
      snd (rt_each (rt_index_one fits eval d c) ids st) =
        if forallb (fun i => match get st i with Some f => f_python f | None => true end) ids then Ok tt else Raise NotImplementedError.
    Proof.
      intros Hd. induction ids as [|i ids IH]; cbn [rt_each forallb]; [split; reflexivity|].
      destruct (get st i) as [f|] eqn:Ef; [|exact IH]. unfold rt_index_one at 1 3. unfold r_insert, r_put. rewrite Hd. destruct (f_python f).
      - assert (Hp : (match eval (f_expr f) d c with Truthy => Ok f | Falsy => Ok f | Exc => Ok f end) = Ok f) by (destruct (eval (f_expr f) d c); reflexivity).
        rewrite Hp, (put_same _ _ _ Ef). exact IH.
      - cbn [fst snd andb]. split; reflexivity.
    Qed.
    Lemma rt_each_unindex d ids st : fits d = true -> NoDup ids ->
      snd (rt_each (rt_unindex_one fits d) ids st) = Ok tt /\
      forall i, get (fst (rt_each (rt_unindex_one fits d) ids st)) i =
        if existsb (eqb i) ids then match get st i with Some f => Some (filt_unindex d f) | None => None end else get st i.
    Proof.
      intros Hd. revert st. induction ids as [|j ids IH]; intros st Hnd; cbn [rt_each existsb]; [split; reflexivity|].
      inversion Hnd as [|? ? Hnj Hnd']; subst.
      assert (Hnot : existsb (eqb j) ids = false) by (destruct (existsb (eqb j) ids) eqn:Ex; [apply existsb_eqb_In in Ex; contradiction|reflexivity]).
      destruct (get st j) as [f|] eqn:Ef.
      - assert (Hu : rt_unindex_one fits d f = Ok (filt_unindex d f)).
        { unfold rt_unindex_one, filt_unindex, r_remove, r_del, mem. rewrite Hd. destruct (get (f_ids f) d); reflexivity. }
        rewrite Hu. destruct (IH (put j (filt_unindex d f) st) Hnd') as [Ha Hb]. split; [exact Ha|]. intros i. rewrite Hb, get_put.
        destruct (eqb i j) eqn:Ei; cbn [orb]; [|reflexivity]. apply eqb_eq in Ei; subst. rewrite Hnot, Ef. reflexivity.
      - destruct (IH st Hnd') as [Ha Hb]. split; [exact Ha|]. intros i. rewrite Hb. destruct (eqb i j) eqn:Ei; cbn [orb]; [|reflexivity].
        apply eqb_eq in Ei; subst. rewrite Hnot, Ef. reflexivity.
    Qed.
    Lemma rt_each_unfit_unindex d st : fits d = false ->
      rt_each (rt_unindex_one fits d) (keys st) st = (st, if is_empty st then Ok tt else Raise TypeError).
    Proof.
      intros Hd. destruct (keys st) as [|i ids] eqn:Ek.
      - assert (He : is_empty st = true) by (unfold is_empty, keys in *; destruct (elts st); [reflexivity|discriminate]). rewrite He. reflexivity.
      - assert (Hi : In i (keys st)) by (rewrite Ek; left; reflexivity). apply keys_In in Hi as [f Hf]. cbn [rt_each]. rewrite Hf.
        unfold rt_unindex_one, r_remove, r_del. rewrite Hd. destruct (is_empty st) eqn:Ee; [|reflexivity].
        rewrite (proj1 (is_empty_get _) Ee) in Hf. discriminate.
    Qed.

    Lemma rt_step_fit st o : match o with TIndex d _ | TUnindex d => fits d | _ => true end = true ->
      rt_step fits eval st o = t_step eval st o.
    Proof.
      destruct o as [f|i| | |i e|d c|d]; try reflexivity; intros Hd; cbn [rt_step t_step].
      - apply rt_each_index, Hd.
      - destruct (rt_each_unindex d (keys st) st Hd (keys_NoDup st)) as [Ha Hb]. destruct (rt_each _ _ _) as [st' r]. cbn [fst snd] in *. subst r. f_equal.
        apply smap_ext. intros i. rewrite Hb. unfold t_unindex. rewrite get_mmap. destruct (get st i) as [f|] eqn:Ef; [|destruct (existsb _ _); reflexivity].
        replace (existsb (eqb i) (keys st)) with true; [reflexivity|]. symmetry. apply existsb_eqb_In, keys_In. eauto.
    Qed.
    Lemma rt_step_unfit_index st d c : fits d = false ->
      rt_step fits eval st (TIndex d c) = (st, if forallb f_python (vals st) then Ok tt else Raise NotImplementedError).
    Proof.
      intros Hd. cbn [rt_step]. destruct (rt_each_unfit_index d c (keys st) st Hd) as [Ha Hb]. destruct (rt_each _ _ _) as [st' r]. cbn [fst snd] in *. subst. f_equal.
      replace (forallb (fun i => match get st i with Some f => f_python f | None => true end) (keys st)) with (forallb f_python (vals st)); [reflexivity|].
      apply eq_true_iff_eq. rewrite !forallb_forall. split.
      - intros H i Hi. destruct (get st i) as [f|] eqn:Ef; [|reflexivity]. apply H, vals_In. eauto.
      - intros H f Hf. apply vals_In in Hf as [i Hi]. specialize (H i). rewrite Hi in H. apply H, keys_In. eauto.
    Qed.
    Lemma topic_run h : rt_run fits eval h = t_run eval (t_fitting fits h).
    Proof.
      unfold rt_run, t_run. generalize (@empty I (filt I E) _) as st. induction h as [|o h IH]; intros st; cbn [fold_left t_fitting filter]; [reflexivity|].
      destruct (match o with TIndex d _ | TUnindex d => fits d | _ => true end) eqn:Ho.
      - cbn [fold_left]. rewrite (rt_step_fit _ _ Ho). apply IH.
      - assert (Hs : fst (rt_step fits eval st o) = st).
        { destruct o as [f|i| | |i e|d c|d]; try discriminate; [rewrite rt_step_unfit_index by exact Ho; reflexivity|].
          cbn [rt_step]. rewrite rt_each_unfit_unindex by exact Ho. reflexivity. }
        rewrite Hs. apply IH.
    Qed.
  End Topic.
End L.

(** ** As stated in P_range.v *)
Lemma field_apply_all {T} `{OT : Ord T} (fits : Z -> bool) (h : list (fop T)) lo hi : mutually_orderable h -> comparable lo h -> comparable hi h ->
  f_apply (QTuple [lo; hi]) (rf_run fits h) = f_apply (QTuple [lo; hi]) (f_run (f_fitting fits h)).
Proof. intros Ho. apply field_apply, Ho. Qed.
Lemma field_sort_fit {T} `{OT : Ord T} (fits : Z -> bool) (h : list (fop T)) : mutually_orderable h ->
  forall heuristic ov_lazy ov_nbest docids reverse limit, forallb fits docids = true ->
  rf_sort fits heuristic ov_lazy ov_nbest docids reverse limit (rf_run fits h) =
  f_sort heuristic ov_lazy ov_nbest docids reverse limit (f_run (f_fitting fits h)).
Proof. intros Ho heuristic ov_lazy ov_nbest docids reverse limit. apply field_sort, Ho. Qed.
Lemma field_sort_unfit {T} `{OT : Ord T} (fits : Z -> bool) (h : list (fop T)) : mutually_orderable h ->
  forall heuristic ov_lazy ov_nbest docids reverse limit d, limit_ok limit -> f_documentCount (rf_run fits h) <> 0 -> In d docids -> fits d = false ->
  rf_sort fits heuristic ov_lazy ov_nbest docids reverse limit (rf_run fits h) = Raise TypeError.
Proof.
  intros Ho heuristic ov_lazy ov_nbest docids reverse limit d Hl Hn Hin Hd. apply field_sort; [exact Ho|exact Hl|exact Hn|].
  destruct (forallb fits docids) eqn:E; [|reflexivity]. rewrite forallb_forall in E. rewrite (E _ Hin) in Hd. discriminate.
Qed.
Section TopicProps.
  Context {I : Type} `{OI : Ord I} {E C : Type}.
  Variables (fits : Z -> bool) (eval : E -> Z -> C -> evres) (h : list (top I E C)).
  Lemma topic_index_unfit d c : fits d = false ->
    snd (rt_step fits eval (rt_run fits eval h) (TIndex d c)) =
      if forallb f_python (vals (rt_run fits eval h)) then Ok tt else Raise NotImplementedError.
  Proof. intros Hd. rewrite rt_step_unfit_index by exact Hd. reflexivity. Qed.
  Lemma topic_unindex_unfit d : fits d = false ->
    snd (rt_step fits eval (rt_run fits eval h) (TUnindex d)) = if is_empty (rt_run fits eval h) then Ok tt else Raise TypeError.
  Proof. intros Hd. cbn [rt_step]. rewrite rt_each_unfit_unindex by exact Hd. reflexivity. Qed.
  Lemma topic_fit o : match o with TIndex d _ | TUnindex d => fits d = true | _ => True end ->
    snd (rt_step fits eval (rt_run fits eval h) o) = snd (t_step eval (t_run eval (t_fitting fits h)) o).
  Proof. intros Ho. rewrite rt_step_fit, topic_run; [reflexivity|]. destruct o; auto. Qed.
End TopicProps.
Lemma elts_opt_inj {K V} `{Ord K} (a b : option (smap K V)) : option_map elts a = option_map elts b -> a = b.
Proof. destruct a, b; cbn; intros Hab; try discriminate Hab; [|reflexivity]. f_equal. apply elts_inj. inversion Hab. reflexivity. Qed.
