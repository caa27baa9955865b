(** * Lemmas about the Okapi index: state *)
From Verif Require Import L_widcode L_lexicon L_setops L_baseindex L_textsys S_text M_okapi Ord.

Lemma f32Z_small n : Z.abs n <= 2 ^ 24 -> f32Z n = n.
Proof. intros H. unfold f32Z. replace (Z.abs n <=? 2 ^ 24) with true by lia. reflexivity. Qed.

(** ** Counting *)
Lemma count_words_fold wids (m : smap Z Z) w :
  get (fold_left (fun d wid => put wid (match get d wid with Some n => n | None => 0 end + 1) d) wids m) w =
  if existsb (eqb w) wids
  then Some (match get m w with Some n => n | None => 0 end + Zlen (filter (eqb w) wids)) else get m w.
Proof.
  revert m; induction wids as [|x wids IH]; intros m; cbn [fold_left existsb filter]; [reflexivity|].
  rewrite IH, !get_put. destruct (eqb w x) eqn:E; cbn [orb].
  - apply eqb_eq in E as ->. destruct (existsb (eqb x) wids) eqn:Ex.
    + f_equal. unfold Zlen. cbn [length]. lia.
    + f_equal. assert (Hf : filter (eqb x) wids = []).
      { clear -Ex. induction wids as [|y wids IH]; [reflexivity|]. cbn [existsb filter] in *.
        apply orb_false_iff in Ex as [-> Ex]. auto. }
      rewrite Hf. reflexivity.
  - reflexivity.
Qed.
Lemma count_words_get wids w :
  get (count_words wids) w = if existsb (eqb w) wids then Some (Zlen (filter (eqb w) wids)) else None.
Proof. unfold count_words. rewrite count_words_fold, get_empty. reflexivity. Qed.

Definition okapi_fr (wids : list Z) : smap Z Z * Z := (count_words wids, Zlen wids).
Lemma okapi_freqs_fr wids : okapi_freqs wids = Ok (okapi_fr wids).
Proof. reflexivity. Qed.
Lemma count_words_mem wids w : mem w (count_words wids) = true <-> In w wids.
Proof.
  unfold mem. rewrite count_words_get. destruct (existsb (eqb w) wids) eqn:E.
  - rewrite <- existsb_eqb_In. cbn. tauto.
  - cbn. split; [discriminate|]. intros H. apply existsb_eqb_In in H. congruence.
Qed.
Lemma okapi_keys wids w : mem w (fst (okapi_fr wids)) = true <-> In w wids.
Proof. apply count_words_mem. Qed.

Lemma filter_ids lx ws w : bij lx -> (forall w, In w ws -> exists i, get (lwids lx) w = Some i) ->
  Zlen (filter (eqb (get_wid lx w)) (ids lx ws)) = occurrences w ws.
Proof.
  intros Hb. unfold occurrences, Zlen. induction ws as [|x ws IH]; intros Hk; [reflexivity|]. cbn [ids map filter].
  assert (He : eqb (get_wid lx w) (get_wid lx x) = eqb w x).
  { apply bool_eq_iff. rewrite !eqb_eq. split; [|intros ->; reflexivity].
    destruct (Hk x (or_introl eq_refl)) as [i Hi]. intros H. exact (get_wid_inj _ _ _ _ Hb Hi H). }
  specialize (IH (fun w Hw => Hk w (or_intror Hw))). fold (ids lx ws). rewrite He.
  destruct (eqb w x); cbn [length]; lia.
Qed.

(** ** Totals *)
Lemma vals_perm_put {V} (d : Z) (v : V) (m : smap Z V) : Permutation (vals (put d v m)) (v :: vals (del d m)).
Proof. unfold vals. rewrite (put_del_perm d v m). reflexivity. Qed.
Lemma vals_perm_del {V} (d : Z) (v : V) (m : smap Z V) : get m d = Some v -> Permutation (vals m) (v :: vals (del d m)).
Proof. intros H. unfold vals. rewrite (del_perm d v m H) at 1. reflexivity. Qed.

Lemma sumZ_perm l l' : Permutation l l' -> fold_right Z.add 0 l = fold_right Z.add 0 l'.
Proof. induction 1; cbn [fold_right]; lia. Qed.

Definition len_at (D : smap Z (list str)) (d : Z) : Z := match get D d with Some ws => Zlen ws | None => 0 end.
Lemma total_del D d : total_words (del d D) = total_words D - len_at D d.
Proof.
  unfold len_at. destruct (get D d) as [ws|] eqn:E.
  - unfold total_words. rewrite (sumZ_perm _ _ (Permutation_map Zlen (vals_perm_del d ws D E))). cbn [map fold_right]. lia.
  - rewrite (del_absent d D E). lia.
Qed.
Lemma total_put D d ws : total_words (put d ws D) = total_words D - len_at D d + Zlen ws.
Proof.
  pose proof (total_del D d) as H. unfold total_words in *.
  rewrite (sumZ_perm _ _ (Permutation_map Zlen (vals_perm_put d ws D))). cbn [map fold_right]. lia.
Qed.

Section OkapiRun.
  Variable pipeline : list elem.
  Local Notation words t := (text_words pipeline t).

  (** the change of the counter made by each operation *)
  Definition f32_at (D : smap Z (list str)) (d : Z) : Z := match get D d with Some ws => f32Z (Zlen ws) | None => 0 end.
  Definition okapi_g (D : smap Z (list str)) (g : Z) (o : top) : Z :=
    match o with
    | TIndex d t => g - f32_at D d + Zlen (words t)
    | TUnindex d => g - f32_at D d
    | TClear => g
    | TOther _ => g
    end.

  Local Notation okinv := (sysinv f32Z okapi_fr).

  Lemma ids_len lx ws : Zlen (ids lx ws) = Zlen ws.
  Proof. unfold Zlen, ids. rewrite map_length. reflexivity. Qed.

  Lemma sysinv_total s D n : okinv s D -> okinv (mkSys (slx s) (change_totaldoclen n (six s))) D.
  Proof.
    intros (H1 & H2 & [I1 I2 I3 [I4 I4'] I5]). split; [exact H1|]. split; [exact H2|].
    constructor; cbn [six change_totaldoclen docwords docweight documentCount]; auto. split; auto.
  Qed.

  Lemma okapi_index_full s D g d t : full f32Z okapi_fr s D g -> small (lex_step pipeline (slx s) (LText t)) ->
    exists s', okapi_index_doc pipeline d t s = (s', Ok (Zlen (words t))) /\
      slx s' = lex_step pipeline (slx s) (LText t) /\
      full f32Z okapi_fr s' (put d (words t) D) (okapi_g D g (TIndex d t)).
  Proof.
    intros [Hi Hg] Hs. unfold okapi_index_doc, okapi_index_doc_with. cbn [okapi_g]. destruct (get D d) as [old|] eqn:Ed.
    - assert (Hx : exists s1, base_index_doc_with f32Z okapi_freqs okapi_reindex d (source pipeline t) s = (s1, Ok (Zlen (words t))) /\
        slx s1 = lex_step pipeline (slx s) (LText t) /\ okinv s1 (put d (words t) D) /\
        totaldoclen (six s1) = totaldoclen (six s) - f32Z (Zlen old)).
      { unfold base_index_doc_with. rewrite (has_doc_D _ _ _ _ _ Hi). replace (mem d D) with true by (symmetry; apply mem_get; eauto).
        unfold okapi_reindex, sbind, slift, item, change_doc_len, on_ix, smod.
        rewrite (weight_D _ _ _ _ _ Hi), Ed. cbn [option_map okapi_fr snd]. rewrite ids_len.
        destruct (sys_reindex pipeline f32Z Z.eqb okapi_freqs okapi_fr (fun _ _ _ x y _ _ => proj1 (Z.eqb_eq x y)) okapi_freqs_fr okapi_keys
          d t (mkSys (slx s) (change_totaldoclen (- f32Z (Zlen old)) (six s))) D old) as (s1 & E1 & E2 & E3 & E4).
        - apply sysinv_total. exact Hi.
        - exact Ed.
        - exact Hs.
        - exists s1. split; [exact E1|]. split; [exact E2|]. split; [exact E3|]. rewrite E4. cbn. lia. }
      destruct Hx as (s1 & E1 & E2 & E3 & E4). unfold sbind at 1. rewrite E1.
      unfold sbind, change_doc_len, on_ix, smod, sret. eexists. split; [reflexivity|]. split; [exact E2|].
      split; [apply sysinv_total; exact E3|]. cbn [six change_totaldoclen totaldoclen]. unfold f32_at. rewrite E4, Ed. lia.
    - destruct (sys_index_new pipeline f32Z okapi_freqs okapi_fr okapi_freqs_fr okapi_keys okapi_reindex d t s D Hi Ed Hs)
        as (s1 & E1 & E2 & E3 & E4). unfold base_index_doc in E1. unfold sbind at 1. rewrite E1.
      unfold sbind, change_doc_len, on_ix, smod, sret. eexists. split; [reflexivity|]. split; [exact E2|].
      split; [apply sysinv_total; exact E3|]. cbn [six change_totaldoclen totaldoclen]. unfold f32_at. rewrite E4, Ed. lia.
  Qed.

  Lemma okapi_unindex_full s D g d : full f32Z okapi_fr s D g ->
    exists s', okapi_unindex_doc d s = (s', Ok tt) /\ slx s' = slx s /\
      full f32Z okapi_fr s' (del d D) (okapi_g D g (TUnindex d)).
  Proof.
    intros [Hi Hg]. unfold okapi_unindex_doc. rewrite (has_doc_D _ _ _ _ _ Hi). cbn [okapi_g].
    destruct (get D d) as [old|] eqn:Ed.
    - replace (mem d D) with true by (symmetry; apply mem_get; eauto). cbn [negb].
      unfold sbind, slift, item, change_doc_len, on_ix, smod.
      rewrite (weight_D _ _ _ _ _ Hi), Ed. cbn [option_map okapi_fr snd]. rewrite ids_len.
      destruct (sys_unindex f32Z Z.eqb okapi_freqs okapi_fr (fun _ _ _ x y _ _ => proj1 (Z.eqb_eq x y)) okapi_freqs_fr okapi_keys
        d (mkSys (slx s) (change_totaldoclen (- f32Z (Zlen old)) (six s))) D old (sysinv_total _ _ _ Hi) Ed) as (s1 & E1 & E2 & E3 & E4).
      exists s1. split; [exact E1|]. split; [exact E2|]. split; [exact E3|]. rewrite E4.
      unfold f32_at. rewrite Ed. cbn [six change_totaldoclen totaldoclen]. lia.
    - replace (mem d D) with false by (symmetry; apply mem_false; exact Ed). cbn [negb].
      exists s. split; [reflexivity|]. split; [reflexivity|]. rewrite (del_absent d D Ed). split; [exact Hi|].
      unfold f32_at. rewrite Ed. lia.
  Qed.

  Definition okapi_total (h : list top) : Z := snd (gfold pipeline okapi_g (empty, 0) h).

  Lemma okapi_run_ok h : history_ok pipeline h ->
    exists s, okapi_run pipeline h = (s, Ok tt) /\
      slx s = lex_run pipeline (lex_hist h) /\ okinv s (docs_of pipeline h) /\
      totaldoclen (six s) = okapi_total h.
  Proof.
    apply (run_ok pipeline f32Z okapi_fr (okapi_index_doc pipeline) okapi_unindex_doc okapi_g); try reflexivity.
    - exact okapi_index_full.
    - exact okapi_unindex_full.
  Qed.

  Lemma okapi_total_small h : texts_small pipeline h ->
    okapi_total h = total_words (docs_of pipeline h) + words_cleared pipeline h.
  Proof.
    intros Hsm. unfold okapi_total, docs_of, words_cleared, gfold.
    assert (G : forall h D g n, texts_small pipeline h -> (forall d ws, get D d = Some ws -> Zlen ws <= 2 ^ 24) ->
      g = total_words D + n ->
      snd (fold_left (fun Dg o => (docs_step pipeline (fst Dg) o, okapi_g (fst Dg) (snd Dg) o)) h (D, g)) =
      total_words (fold_left (docs_step pipeline) h D) +
      snd (fold_left (fun Dn o => (docs_step pipeline (fst Dn) o,
                               match o with TClear => snd Dn + total_words (fst Dn) | _ => snd Dn end)) h (D, n))).
    { clear h Hsm. induction h as [|o h IH]; intros D g n Hsm HD Hg; [exact Hg|]. cbn [fold_left fst snd].
      assert (Hf : forall d, f32_at D d = len_at D d).
      { intros d. unfold f32_at, len_at. destruct (get D d) as [ws|] eqn:E; [|reflexivity]. apply f32Z_small.
        pose proof (HD d ws E). unfold Zlen in *. lia. }
      apply IH.
      - intros d t Hin. apply (Hsm d t). right. exact Hin.
      - destruct o as [d t|d| |lo]; cbn [docs_step]; try exact HD.
        + intros d' ws. rewrite get_put. destruct (eqb d' d); [|apply HD]. intros [= <-]. apply (Hsm d t). left. reflexivity.
        + intros d' ws. rewrite get_del. destruct (eqb d' d); [discriminate|apply HD].
        + intros d' ws. rewrite get_empty. discriminate.
      - destruct o as [d t|d| |lo]; cbn [docs_step okapi_g]; rewrite ?Hf.
        + rewrite total_put. lia.
        + rewrite total_del. lia.
        + change (total_words empty) with 0. lia.
        + exact Hg. }
    apply G; [exact Hsm|intros d ws; rewrite get_empty; discriminate|reflexivity].
  Qed.
End OkapiRun.
