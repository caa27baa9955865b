(** * Lemmas about searches in the cosine index *)
From Verif Require Import L_widcode L_lexicon L_setops L_baseindex L_textsys L_okapi L_cosine L_search L_okasearch S_text S_setops S_score M_cosine Ord.

Section CosSearch.
  Context {F : Type} {AF : Arith F} {SF : SafeArith F}.
  Variable pipeline : list elem.
  Variable s : sys F.
  Variable D : smap Z (list str).
  Hypothesis inv : sysinv f32 cos_fr s D.
  Local Notation lx := (slx s).
  Local Notation ix := (six s).

  Definition cos_map (i : Z) : smap Z F :=
    match get (wordinfo ix) i with
    | Some p => if p_dict p then mmap (fun _ => f32) (p_map p) else p_map p
    | None => empty
    end.
  Definition cos_idf (i : Z) : F :=
    fln (fadd f1 (fdiv (fofZ (Zsize D)) (fofZ (match get (wordinfo ix) i with Some p => Zsize (p_map p) | None => 0 end)))).

  Lemma cos_idf_word w : In w (vocabulary D) -> cos_idf (get_wid lx w) = idf D w.
  Proof.
    intros Hw. destruct (posting_item f32 cos_fr cos_keys s D inv w Hw) as (p & Ep & Hp).
    unfold cos_idf, idf. rewrite Ep, Hp, (posting_size f32 cos_fr cos_keys s D inv w). reflexivity.
  Qed.

  Lemma cos_wids_ok wids : (forall i, In i wids -> mem i (wordinfo ix) = true) ->
    cos_search_wids ix wids = Ok (map (fun i => (cos_map i, cos_idf i)) wids).
  Proof.
    intros H. apply mapM_ok_map. intros i Hi. specialize (H i Hi).
    destruct (wid_word f32 cos_fr cos_keys s D inv i H) as (w & Hw & ->).
    unfold cos_search_wid. rewrite H. cbn [negb].
    destruct (posting_item f32 cos_fr cos_keys s D inv w Hw) as (p & Ep & Hp).
    unfold item. rewrite Ep. cbn [bind]. rewrite Hp, (posting_size f32 cos_fr cos_keys s D inv w).
    rewrite (idf_ok D w _ Hw (docweight_size f32 cos_fr s D inv)). cbn [bind].
    rewrite (cos_idf_word w Hw). unfold cos_map. rewrite Ep, Hp. reflexivity.
  Qed.

  Lemma cos_keys' w d : In w (vocabulary D) ->
    (mem d (cos_map (get_wid lx w)) = true <-> exists ws, get D d = Some ws /\ In w ws).
  Proof.
    intros Hw. destruct (posting_item f32 cos_fr cos_keys s D inv w Hw) as (p & Ep & Hp).
    rewrite <- (posting_mem f32 cos_fr cos_keys s D w d inv), <- Hp. unfold cos_map. rewrite Ep.
    destruct (p_dict p); [|reflexivity]. unfold mem. rewrite get_mmap. destruct (get (p_map p) d); reflexivity.
  Qed.

  (** The weights, in any arithmetic *)
  Lemma count_items_words ws : (forall w, In w ws -> exists i, get (lwids lx) w = Some i) ->
    count_items (ids lx ws) = map (fun w => (get_wid lx w, occurrences w ws)) (distinct ws).
  Proof.
    intros Hk. pose proof inv as (H1 & _). destruct (distinct_spec ws) as [_ Hd].
    assert (HD : forall l ds, (forall w, In w l \/ In w ds -> exists i, get (lwids lx) w = Some i) ->
      fold_left (fun ks wid => if existsb (eqb wid) ks then ks else ks ++ [wid]) (ids lx l) (ids lx ds) =
      ids lx (fold_left (fun ds w => if existsb (eqb w) ds then ds else ds ++ [w]) l ds)).
    { induction l as [|w l IH]; intros ds Hi; [reflexivity|]. cbn [fold_left].
      change (ids lx (w :: l)) with (get_wid lx w :: ids lx l). cbn [fold_left].
      replace (existsb (eqb (get_wid lx w)) (ids lx ds)) with (existsb (eqb w) ds).
      - destruct (existsb (eqb w) ds); [apply IH; intros x [Hx|Hx]; apply Hi; cbn; auto|].
        replace (ids lx ds ++ [get_wid lx w]) with (ids lx (ds ++ [w])) by (unfold ids; apply map_app).
        apply IH. intros x [Hx|Hx]; [apply Hi; cbn; auto|]. apply in_app_iff in Hx as [Hx|[<-|[]]]; apply Hi; cbn; auto.
      - apply bool_eq_iff. rewrite !existsb_eqb_In. unfold ids. rewrite in_map_iff. split.
        + intros H. exists w. auto.
        + intros (x & E & Hx). destruct (Hi x (or_intror Hx)) as [i Ei].
          rewrite (get_wid_inj _ _ _ _ H1 Ei (eq_sym E)). exact Hx. }
    unfold count_items.
    pose proof (HD ws []) as E. change (ids lx []) with (@nil Z) in E. rewrite E by (intros w [Hw|[]]; auto). clear E.
    fold (distinct ws). unfold ids at 2. rewrite map_map. fold (distinct ws). apply map_ext_in. intros w Hw. f_equal.
    apply Hd in Hw. rewrite count_words_get.
    replace (existsb (eqb (get_wid lx w)) (ids lx ws)) with true by (symmetry; apply existsb_eqb_In, in_map; exact Hw).
    rewrite (filter_ids lx ws w H1 Hk). reflexivity.
  Qed.

  Lemma cos_norm ws : (forall w, In w ws -> exists i, get (lwids lx) w = Some i) ->
    snd (cos_fr (ids lx ws)) = (doc_norm ws : F).
  Proof.
    intros Hk. unfold cos_fr, doc_norm. cbn [snd]. f_equal. rewrite (count_items_words ws Hk). unfold cos_W2, lsum.
    generalize (distinct ws), (f0 : F). intros l. induction l as [|w l IH]; intros a; [reflexivity|]. cbn [map fold_left snd]. apply IH.
  Qed.

  Lemma cos_weight_in w ws x : (forall w, In w ws -> exists i, get (lwids lx) w = Some i) ->
    weight_in cos_fr lx ws w = Some x -> x = cosine_weight w ws.
  Proof.
    intros Hk. pose proof inv as (H1 & _). unfold weight_in, cosine_weight. rewrite <- (cos_norm ws Hk).
    unfold cos_fr. cbn [fst snd]. rewrite get_mmap, count_words_get.
    destruct (existsb _ _); [|discriminate]. cbn [option_map]. intros [= <-].
    rewrite (filter_ids lx ws w H1 Hk). reflexivity.
  Qed.
  Lemma cos_posting_val w d ws v : get D d = Some ws -> get (posting_of s w) d = Some v ->
    v = cosine_weight w ws \/ v = f32 (cosine_weight w ws).
  Proof.
    intros Hd Hv. destruct (posting_val f32 cos_fr s D w d ws v inv Hd Hv) as (x & Hx & Hvx).
    pose proof inv as (_ & H2 & _). apply (cos_weight_in _ _ _ (H2 d ws Hd)) in Hx as ->. exact Hvx.
  Qed.

  Lemma cos_map_val w d ws : get D d = Some ws -> In w ws ->
    get (cos_map (get_wid lx w)) d = Some (f32 (cosine_weight w ws)).
  Proof.
    intros Hd Hw. assert (Hv : In w (vocabulary D)) by (apply vocabulary_In; eauto). pose proof inv as (H1 & H2 & H3).
    destruct (posting_item f32 cos_fr cos_keys s D inv w Hv) as (p & Ep & Hp).
    pose proof (proj1 (iv_info _ _ _ _ H3) (get_wid lx w)) as Hi. rewrite Ep in Hi. destruct Hi as [_ Hi]. specialize (Hi d).
    unfold targets in Hi. rewrite get_idmap, Hd in Hi. cbn [option_map] in Hi. fold (weight_in cos_fr lx ws w) in Hi.
    destruct (proj2 (weight_in_In f32 cos_fr cos_keys s D d ws w inv Hd) Hw) as [x Hx]. rewrite Hx in Hi.
    rewrite (cos_weight_in w ws x (H2 d ws Hd) Hx) in Hi. cbn [option_map] in Hi. unfold stored in Hi.
    unfold cos_map. rewrite Ep. destruct (p_dict p); [rewrite get_mmap|]; rewrite Hi; reflexivity.
  Qed.

  Context {XF : ExactArith F}.

  Lemma fsum_perm l l' : Permutation l l' -> fsum l = fsum l'.
  Proof.
    induction 1; cbn [fsum fold_right]; [reflexivity|f_equal; assumption| |congruence].
    fold (fsum l). rewrite !fadd_assoc, (fadd_comm x y). reflexivity.
  Qed.

  Lemma cos_score_val w d ws : get D d = Some ws -> In w ws ->
    exists v, get (cos_map (get_wid lx w)) d = Some v /\ fmul v (cos_idf (get_wid lx w)) = cosine D w ws.
  Proof.
    intros Hd Hw. assert (Hv : In w (vocabulary D)) by (apply vocabulary_In; eauto).
    exists (f32 (cosine_weight w ws)). split; [exact (cos_map_val w d ws Hd Hw)|].
    rewrite (cos_idf_word w Hv), f32_exact. reflexivity.
  Qed.
End CosSearch.
