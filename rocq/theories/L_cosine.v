(** * Lemmas about the cosine index: state *)
From Verif Require Import L_widcode L_lexicon L_setops L_baseindex L_textsys L_okapi S_text M_cosine Ord.

Section CosRun.
  Context {F : Type} {AF : Arith F} {SF : SafeArith F}.
  Variable pipeline : list elem.
  Local Notation words t := (text_words pipeline t).

  (** w(d, t) before normalisation *)
  Definition tw (n : Z) : F := fadd f1 (fln (fofZ n)).
  Definition cos_W2 (counts : list (Z * Z)) (acc : F) : F :=
    fold_left (fun acc kc => fadd acc (fmul (tw (snd kc)) (tw (snd kc)))) counts acc.
  Definition cos_fr (wids : list Z) : smap Z F * F :=
    let W := fsqrt (cos_W2 (count_items wids) f0) in
    (mmap (fun _ n => fdiv (tw n) W) (count_words wids), W).

  Definition dict_keys {K} {OK : Ord K} (l : list K) : list K :=
    fold_left (fun ks k => if existsb (eqb k) ks then ks else ks ++ [k]) l [].
  Lemma dict_keys_spec {K} {OK : Ord K} (l : list K) : NoDup (dict_keys l) /\ forall k, In k (dict_keys l) <-> In k l.
  Proof.
    unfold dict_keys.
    assert (H : forall ds, NoDup ds -> NoDup (fold_left (fun ks k => if existsb (eqb k) ks then ks else ks ++ [k]) l ds) /\
      forall w, In w (fold_left (fun ks k => if existsb (eqb k) ks then ks else ks ++ [k]) l ds) <-> In w ds \/ In w l).
    { induction l as [|x l IH]; intros ds Hd; cbn [fold_left].
      - split; [exact Hd|]. intros w. cbn. tauto.
      - destruct (existsb (eqb x) ds) eqn:E.
        + destruct (IH ds Hd) as [A B]. split; [exact A|]. intros w. rewrite B. cbn. apply existsb_eqb_In in E.
          split; [tauto|]. intros [?|[<-|?]]; auto.
        + destruct (IH (ds ++ [x])) as [A B].
          * rewrite <- (rev_involutive (ds ++ [x])). apply NoDup_rev. rewrite rev_unit. constructor; [|apply NoDup_rev, Hd].
            rewrite <- in_rev. intros Hin. apply existsb_eqb_In in Hin. congruence.
          * split; [exact A|]. intros w. rewrite B, in_app_iff. cbn. tauto. }
    destruct (H [] (NoDup_nil _)) as [A B]. split; [exact A|]. intros w. rewrite (B w). cbn. tauto.
  Qed.
  Lemma count_items_keys wids : map fst (count_items wids) = dict_keys wids.
  Proof. unfold count_items. rewrite map_map. cbn [fst]. apply map_id. Qed.
  Lemma count_items_In wids w n : In (w, n) (count_items wids) <-> get (count_words wids) w = Some n.
  Proof.
    unfold count_items. rewrite in_map_iff. change (fold_left _ wids []) with (dict_keys wids). split.
    - intros (x & E & Hx). injection E as -> <-. apply (proj2 (dict_keys_spec wids)), count_words_mem in Hx.
      apply mem_get in Hx as [m ->]. reflexivity.
    - intros H. exists w. rewrite H. split; [reflexivity|]. apply (proj2 (dict_keys_spec wids)), count_words_mem, mem_get. eauto.
  Qed.
  Lemma count_pos wids w n : In (w, n) (count_items wids) -> 1 <= n.
  Proof.
    rewrite count_items_In. intros H. rewrite count_words_get in H. destruct (existsb (eqb w) wids) eqn:E; [|discriminate].
    injection H as <-. apply existsb_exists in E as (x & Hx & Ex). unfold Zlen.
    assert (In x (filter (eqb w) wids)) by (apply filter_In; auto).
    destruct (filter (eqb w) wids); [contradiction|]. cbn [length]. lia.
  Qed.

  Lemma cos_weights_ok counts acc : (forall w n, In (w, n) counts -> 1 <= n) ->
    cos_weights counts acc = Ok (map (fun kc => (fst kc, tw (snd kc))) counts, cos_W2 counts acc).
  Proof.
    revert acc; induction counts as [|[w n] counts IH]; intros acc H; cbn [cos_weights map cos_W2 fold_left]; [reflexivity|].
    unfold doc_term_weight, py_log. destruct (safe_count n) as [E _]; [apply (H w); left; reflexivity|]. rewrite E.
    cbn [bind fst snd]. rewrite IH by (intros w' n' Hin; apply (H w'); right; exact Hin). reflexivity.
  Qed.

  Lemma cos_W2_ge1 counts acc : (forall w n, In (w, n) counts -> 1 <= n) ->
    (acc = f0 /\ counts <> []) \/ fleb f1 acc = true -> fleb f1 (cos_W2 counts acc) = true.
  Proof.
    revert acc; induction counts as [|[w n] counts IH]; intros acc H Ha; cbn [cos_W2 fold_left].
    - destruct Ha as [[_ Ha]|Ha]; [contradiction|exact Ha].
    - apply IH; [intros w' n' Hin; apply (H w'); right; exact Hin|]. right. cbn [snd]. apply safe_square.
      + apply safe_count. apply (H w). left. reflexivity.
      + destruct Ha as [[Ha _]|Ha]; auto.
  Qed.

  Lemma of_list_elts {A} (l : list (Z * A)) (m : smap Z A) : l = elts m -> of_list l = m.
  Proof.
    intros ->. apply smap_ext. intros k. rewrite get_of_list. unfold get.
    destruct (rget (rev (elts m)) k) as [v|] eqn:E.
    - symmetry. apply get_In. assert (Hg : forall (l : list (Z * A)) k v, rget l k = Some v -> In (k, v) l).
      { induction l as [|[k0 v0] l IH]; intros k' v'; cbn [rget]; [discriminate|].
        destruct (eqb k' k0) eqn:Ek; [apply eqb_eq in Ek as ->; intros [= ->]; left; reflexivity|].
        intros H. right. auto. }
      apply Hg in E. apply in_rev in E. exact E.
    - symmetry. apply rget_None_notin. apply rget_None_notin in E. intros Hin. apply E.
      rewrite map_rev. apply -> in_rev. exact Hin.
  Qed.

  Lemma of_list_ext {A} (l : list (Z * A)) (m : smap Z A) : NoDup (map fst l) ->
    (forall k v, In (k, v) l <-> get m k = Some v) -> of_list l = m.
  Proof.
    intros Hn H. apply smap_ext. intros k. rewrite get_of_list.
    assert (Hg : forall (l : list (Z * A)) k v, rget l k = Some v -> In (k, v) l).
    { induction l0 as [|[k0 v0] l0 IH]; intros k' v'; cbn [rget]; [discriminate|].
      destruct (eqb k' k0) eqn:Ek; [apply eqb_eq in Ek as ->; intros [= ->]; left; reflexivity|].
      intros H'. right. auto. }
    destruct (rget (rev l) k) as [v|] eqn:E.
    - apply Hg in E. apply in_rev in E. symmetry. apply H. exact E.
    - destruct (get m k) as [v|] eqn:Em; [exfalso|reflexivity]. apply H in Em. apply rget_None_notin in E. apply E.
      rewrite map_rev. apply -> in_rev. apply in_map_iff. exists (k, v). split; [reflexivity|exact Em].
  Qed.

  Lemma cos_freqs_fr wids : cos_freqs wids = Ok (cos_fr wids).
  Proof.
    unfold cos_freqs, cos_fr. set (c := count_items wids).
    assert (Hp : forall w n, In (w, n) c -> 1 <= n) by (intros w n; apply count_pos).
    rewrite (cos_weights_ok c f0 Hp). cbn [bind]. unfold py_sqrt.
    assert (Hs : fleb f0 (cos_W2 c f0) = true /\ (c <> [] -> feqb (fsqrt (cos_W2 c f0)) f0 = false)).
    { destruct c as [|x c'] eqn:Ec.
      - split; [apply safe_zero|intros H; contradiction].
      - assert (H1 : fleb f1 (cos_W2 (x :: c') f0) = true).
        { apply cos_W2_ge1; [exact Hp|]. left. split; [reflexivity|discriminate]. }
        apply safe_sqrt in H1 as [H1 H2]. split; [exact H1|]. intros _. apply safe_nonzero. exact H2. }
    destruct Hs as [-> Hnz]. cbn [bind].
    rewrite (mapM_ok_map _ (fun kw => (fst kw, fdiv (snd kw) (fsqrt (cos_W2 c f0))))).
    - cbn [bind]. f_equal. f_equal. rewrite map_map. apply of_list_ext.
      + rewrite map_map. cbn [fst]. unfold c. rewrite count_items_keys. apply dict_keys_spec.
      + intros k v. rewrite get_mmap, in_map_iff. cbn [fst snd]. split.
        * intros ([w n] & E & Hin). cbn [fst snd] in E. injection E as -> <-. apply count_items_In in Hin. rewrite Hin. reflexivity.
        * destruct (get (count_words wids) k) as [n|] eqn:E; [|discriminate]. cbn [option_map]. intros [= <-].
          exists (k, n). split; [reflexivity|]. apply count_items_In. exact E.
    - intros [w v] Hin. unfold py_div. cbn [snd fst]. rewrite Hnz; [reflexivity|]. intros ->. destruct Hin.
  Qed.

  Lemma cos_keys wids w : mem w (fst (cos_fr wids)) = true <-> In w wids.
  Proof.
    unfold cos_fr. cbn [fst]. rewrite <- count_words_mem. unfold mem. rewrite get_mmap. destruct (get (count_words wids) w); reflexivity.
  Qed.

  Context {EF : SoundEq F}.
  Lemma cos_fr_quotient wids w v : get (fst (cos_fr wids)) w = Some v ->
    exists x y, fleb f1 x = true /\ fleb f1 y = true /\ v = fdiv x y.
  Proof.
    unfold cos_fr. cbn [fst]. rewrite get_mmap. destruct (get (count_words wids) w) as [n|] eqn:E; [|discriminate].
    cbn [option_map]. intros [= <-]. apply count_items_In in E. eexists. eexists. splits; [| |reflexivity].
    - apply safe_count. exact (count_pos _ _ _ E).
    - apply safe_sqrt, cos_W2_ge1; [intros w' n'; apply count_pos|]. left. split; [reflexivity|].
      intros H. rewrite H in E. destruct E.
  Qed.
  Lemma cos_same_weight wids wids' w v v' : get (fst (cos_fr wids)) w = Some v -> get (fst (cos_fr wids')) w = Some v' ->
    feqb v v' = true -> v = v'.
  Proof.
    intros H H'. apply cos_fr_quotient in H as (x & y & Hx & Hy & ->). apply cos_fr_quotient in H' as (x' & y' & Hx' & Hy' & ->).
    apply feqb_sound; assumption.
  Qed.
  Local Notation cosinv := (sysinv f32 cos_fr).

  Lemma cos_index_full s D g d t : full f32 cos_fr s D g -> small (lex_step pipeline (slx s) (LText t)) ->
    exists s', cos_index_doc pipeline d t s = (s', Ok (Zlen (words t))) /\
      slx s' = lex_step pipeline (slx s) (LText t) /\ full f32 cos_fr s' (put d (words t) D) g.
  Proof.
    intros [Hi Hg] Hs. unfold cos_index_doc, cos_index_doc_with. destruct (get D d) as [old|] eqn:Ed.
    - unfold base_index_doc_with. rewrite (has_doc_D _ _ _ _ _ Hi). replace (mem d D) with true by (symmetry; apply mem_get; eauto).
      destruct (sys_reindex pipeline f32 feqb cos_freqs cos_fr cos_same_weight cos_freqs_fr cos_keys d t s D old Hi Ed Hs)
        as (s1 & E1 & E2 & E3 & E4).
      exists s1. split; [exact E1|]. split; [exact E2|]. split; [exact E3|congruence].
    - destruct (sys_index_new pipeline f32 cos_freqs cos_fr cos_freqs_fr cos_keys (base_reindex_with f32 feqb cos_freqs) d t s D Hi Ed Hs)
        as (s1 & E1 & E2 & E3 & E4).
      exists s1. split; [exact E1|]. split; [exact E2|]. split; [exact E3|congruence].
  Qed.

  Lemma cos_unindex_full (s : sys F) D g d : full f32 cos_fr s D g ->
    exists s', base_unindex_doc d s = (s', Ok tt) /\ slx s' = slx s /\ full f32 cos_fr s' (del d D) g.
  Proof.
    intros [Hi Hg]. destruct (get D d) as [old|] eqn:Ed.
    - destruct (sys_unindex f32 feqb cos_freqs cos_fr cos_same_weight cos_freqs_fr cos_keys d s D old Hi Ed)
        as (s1 & E1 & E2 & E3 & E4).
      exists s1. split; [exact E1|]. split; [exact E2|]. split; [exact E3|congruence].
    - exists s. rewrite (sys_unindex_none _ _ _ _ _ Hi Ed), (del_absent d D Ed). split; [reflexivity|]. split; [reflexivity|]. split; auto.
  Qed.

  Lemma cos_run_ok h : history_ok pipeline h ->
    exists s, cos_run pipeline h = (s, Ok tt) /\
      slx s = lex_run pipeline (lex_hist h) /\ cosinv s (docs_of pipeline h) /\ totaldoclen (six s) = 0.
  Proof.
    intros Hh. destruct (run_ok pipeline f32 cos_fr (cos_index_doc pipeline) base_unindex_doc (fun _ g _ => g)) with (h := h)
      as (s & E1 & E2 & E3 & E4); try reflexivity.
    - exact cos_index_full.
    - exact cos_unindex_full.
    - exact Hh.
    - exists s. split; [exact E1|]. split; [exact E2|]. split; [exact E3|]. rewrite E4. unfold gfold.
      assert (G : forall l D, snd (fold_left (fun Dg o => (docs_step pipeline (fst Dg) o, snd Dg)) l (D, 0)) = 0).
      { induction l as [|o l IH]; intros D; [reflexivity|]. cbn [fold_left fst snd]. apply IH. }
      apply G.
  Qed.
End CosRun.
