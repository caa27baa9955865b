(** * Lemmas: the text index with its lexicon, over histories *)
From Verif Require Import L_widcode L_lexicon L_setops L_baseindex S_text M_okapi M_cosine Ord.

Section System.
  Variable pipeline : list elem.
  Local Notation words t := (text_words pipeline t).

  Definition ids (lx : lex) (ws : list str) : list Z := map (get_wid lx) ws.
  Definition known (lx : lex) (D : smap Z (list str)) : Prop :=
    forall d ws, get D d = Some ws -> forall w, In w ws -> exists i, get (lwids lx) w = Some i.
  Definition small (lx : lex) : Prop := forall i w, get (lwords lx) i = Some w -> i < 2 ^ 28.
  Definition idmap (lx : lex) (D : smap Z (list str)) : smap Z (list Z) := mmap (fun _ ws => ids lx ws) D.

  Lemma get_idmap lx D d : get (idmap lx D) d = option_map (ids lx) (get D d).
  Proof. unfold idmap. rewrite get_mmap. destruct (get D d); reflexivity. Qed.
  Lemma idmap_put lx d ws D : idmap lx (put d ws D) = put d (ids lx ws) (idmap lx D).
  Proof. apply smap_ext. intros k. rewrite get_idmap, !get_put, get_idmap. destruct (eqb k d); reflexivity. Qed.
  Lemma idmap_del lx d D : idmap lx (del d D) = del d (idmap lx D).
  Proof. apply smap_ext. intros k. rewrite get_idmap, !get_del, get_idmap. destruct (eqb k d); reflexivity. Qed.
  Lemma idmap_empty lx : idmap lx empty = empty.
  Proof. apply smap_ext. intros k. rewrite get_idmap, !get_empty. reflexivity. Qed.
  Lemma idmap_size lx D : Zsize (idmap lx D) = Zsize D.
  Proof. unfold Zsize, idmap. rewrite size_mmap. reflexivity. Qed.

  Lemma get_wid_grows lx lx' w i : grows lx lx' -> get (lwids lx) w = Some i -> get_wid lx' w = get_wid lx w.
  Proof. intros [H _] Hi. unfold get_wid. rewrite (H _ _ Hi), Hi. reflexivity. Qed.

  Lemma idmap_grows lx lx' D : grows lx lx' -> known lx D -> idmap lx' D = idmap lx D.
  Proof.
    intros Hg Hk. apply smap_ext. intros d. rewrite !get_idmap. destruct (get D d) as [ws|] eqn:E; [|reflexivity].
    cbn [option_map]. f_equal. apply map_ext_in. intros w Hw. destruct (Hk d ws E w Hw) as [i Hi].
    exact (get_wid_grows _ _ _ _ Hg Hi).
  Qed.
  Lemma known_grows lx lx' D : grows lx lx' -> known lx D -> known lx' D.
  Proof. intros [Hg _] Hk d ws E w Hw. destruct (Hk d ws E w Hw) as [i Hi]. exists i. auto. Qed.
  Lemma small_grows lx lx' : grows lx lx' -> small lx' -> small lx.
  Proof. intros [_ Hg] Hs i w Hi. exact (Hs i w (Hg _ _ Hi)). Qed.

  Lemma source_spec t lx : bij lx ->
    let lx' := lex_step pipeline lx (LText t) in
    sourceToWordIds pipeline t lx = (lx', Ok (ids lx' (words t))) /\ bij lx' /\ grows lx lx' /\
    (forall w, In w (words t) -> exists i, get (lwids lx') w = Some i).
  Proof.
    intros Hb. cbn [lex_step]. unfold sourceToWordIds.
    destruct (create_all_ok (words t) lx Hb) as (lx' & l & E & H1 & H2 & H3 & H4 & _).
    change (run_pipeline pipeline (text2list t)) with (words t). rewrite E. cbn [fst]. subst l. auto.
  Qed.

  Lemma ids_ok lx ws : bij lx -> small lx -> (forall w, In w ws -> exists i, get (lwids lx) w = Some i) ->
    Forall wid_ok (ids lx ws).
  Proof.
    intros (H1 & H2 & _) Hs Hk. apply Forall_forall. intros i Hi. apply in_map_iff in Hi as (w & <- & Hw).
    destruct (Hk w Hw) as [i Hi]. unfold get_wid. rewrite Hi. apply H1 in Hi. unfold wid_ok.
    pose proof (H2 _ _ Hi). pose proof (Hs _ _ Hi). lia.
  Qed.

    Lemma get_wid_inj lx w w' i : bij lx -> get (lwids lx) w = Some i -> get_wid lx w' = get_wid lx w -> w' = w.
    Proof.
      intros (H1 & H2 & _) Hi He. unfold get_wid in He. rewrite Hi in He. apply H1 in Hi.
      destruct (get (lwids lx) w') as [i'|] eqn:E'.
      - subst i'. apply H1 in E'. congruence.
      - pose proof (H2 _ _ Hi). lia.
    Qed.

    Lemma in_ids lx ws w : bij lx -> (forall w, In w ws -> exists i, get (lwids lx) w = Some i) ->
      (In (get_wid lx w) (ids lx ws) <-> In w ws).
    Proof.
      intros Hb Hk. split; [|apply in_map]. intros Hin. apply in_map_iff in Hin as (w' & He & Hw').
      destruct (Hk w' Hw') as [i Hi]. symmetry in He. rewrite (get_wid_inj _ _ _ _ Hb Hi He). exact Hw'.
    Qed.

    Lemma vocabulary_In (D : smap Z (list str)) w : In w (vocabulary D) <-> exists d ws, get D d = Some ws /\ In w ws.
    Proof.
      unfold vocabulary. rewrite (proj2 (distinct_spec _)), in_concat. split.
      - intros (ws & Hv & Hw). apply vals_In in Hv as [d Hd]. eauto.
      - intros (d & ws & Hd & Hw). exists ws. split; [apply vals_In; eauto|exact Hw].
    Qed.

  Section Class.
    Context {V : Type}.
    Variable rnd : V -> V.
    Variable veqb : V -> V -> bool.
    Variable freqs : list Z -> res (smap Z V * V).
    Variable fr : list Z -> smap Z V * V.
    Hypothesis veqb_eq : forall wids wids' w v v', get (fst (fr wids)) w = Some v -> get (fst (fr wids')) w = Some v' ->
      veqb v v' = true -> v = v'.
    Hypothesis freqs_fr : forall wids, freqs wids = Ok (fr wids).
    Hypothesis freqs_keys : forall wids w, mem w (fst (fr wids)) = true <-> In w wids.

    Definition sysinv (s : sys V) (D : smap Z (list str)) : Prop :=
      bij (slx s) /\ known (slx s) D /\ ixinv rnd fr (six s) (idmap (slx s) D).

    Lemma sysinv_lex s D lx' : sysinv s D -> bij lx' -> grows (slx s) lx' -> sysinv (mkSys lx' (six s)) D.
    Proof.
      intros (H1 & H2 & H3) Hb Hg. split; [exact Hb|]. cbn [slx six]. split; [exact (known_grows _ _ _ Hg H2)|].
      rewrite (idmap_grows _ _ _ Hg H2). exact H3.
    Qed.

    Lemma has_doc_D s D d : sysinv s D -> has_doc (six s) d = mem d D.
    Proof.
      intros (_ & _ & H). rewrite (has_doc_E rnd fr _ _ _ H). unfold mem. rewrite get_idmap. destruct (get D d); reflexivity.
    Qed.

    Lemma known_put lx d ws D : known lx D -> (forall w, In w ws -> exists i, get (lwids lx) w = Some i) ->
      known lx (put d ws D).
    Proof.
      intros Hk Hw d' ws'. rewrite get_put. destruct (eqb d' d); [intros [= <-]; exact Hw|apply Hk].
    Qed.

    (** new documents *)
    Lemma sys_index_new re d t s D : sysinv s D -> get D d = None -> small (lex_step pipeline (slx s) (LText t)) ->
      exists s', base_index_doc rnd freqs pipeline re d t s = (s', Ok (Zlen (words t))) /\
        slx s' = lex_step pipeline (slx s) (LText t) /\ sysinv s' (put d (words t) D) /\
        totaldoclen (six s') = totaldoclen (six s).
    Proof.
      intros (H1 & H2 & H3) Hd Hs. destruct (source_spec t (slx s) H1) as (E & Hb & Hg & Hk).
      set (lx' := lex_step pipeline (slx s) (LText t)) in *.
      destruct (index_new_ok rnd freqs fr freqs_fr freqs_keys pipeline re d t s lx' (ids lx' (words t)) _ H3) with (2 := E) as (ix' & E' & Hi & Ht).
      - rewrite get_idmap, Hd. reflexivity.
      - exact (ids_ok _ _ Hb Hs Hk).
      - exists (mkSys lx' ix'). split; [|split; [reflexivity|split; [|exact Ht]]].
        + rewrite E'. f_equal. f_equal. unfold Zlen, ids. rewrite map_length. reflexivity.
        + split; [exact Hb|]. cbn [slx six]. split; [exact (known_put _ _ _ _ (known_grows _ _ _ Hg H2) Hk)|].
          rewrite idmap_put, (idmap_grows _ _ _ Hg H2). exact Hi.
    Qed.

    (** documents that are indexed already *)
    Lemma sys_reindex d t s D old : sysinv s D -> get D d = Some old -> small (lex_step pipeline (slx s) (LText t)) ->
      exists s', base_reindex rnd veqb freqs pipeline d t s = (s', Ok (Zlen (words t))) /\
        slx s' = lex_step pipeline (slx s) (LText t) /\ sysinv s' (put d (words t) D) /\
        totaldoclen (six s') = totaldoclen (six s).
    Proof.
      intros (H1 & H2 & H3) Hd Hs. destruct (source_spec t (slx s) H1) as (E & Hb & Hg & Hk).
      set (lx' := lex_step pipeline (slx s) (LText t)) in *.
      destruct (reindex_ok rnd veqb freqs fr veqb_eq freqs_fr freqs_keys pipeline d t s lx' (ids lx' (words t)) _ (ids (slx s) old) H3) with (2 := E) as (ix' & E' & Hi & Ht).
      - rewrite get_idmap, Hd. reflexivity.
      - exact (ids_ok _ _ Hb Hs Hk).
      - exists (mkSys lx' ix'). split; [|split; [reflexivity|split; [|exact Ht]]].
        + rewrite E'. f_equal. f_equal. unfold Zlen, ids. rewrite map_length. reflexivity.
        + split; [exact Hb|]. cbn [slx six]. split; [exact (known_put _ _ _ _ (known_grows _ _ _ Hg H2) Hk)|].
          rewrite idmap_put, (idmap_grows _ _ _ Hg H2). exact Hi.
    Qed.

    Lemma sys_unindex d s D old : sysinv s D -> get D d = Some old ->
      exists s', base_unindex_doc d s = (s', Ok tt) /\ slx s' = slx s /\ sysinv s' (del d D) /\
        totaldoclen (six s') = totaldoclen (six s).
    Proof.
      intros (H1 & H2 & H3) Hd.
      destruct (unindex_ok rnd veqb freqs fr veqb_eq freqs_fr freqs_keys d s _ (ids (slx s) old) H3) as (ix' & E' & Hi & Ht).
      - rewrite get_idmap, Hd. reflexivity.
      - exists (mkSys (slx s) ix'). split; [exact E'|split; [reflexivity|split; [|exact Ht]]].
        split; [exact H1|]. cbn [slx six]. rewrite idmap_del. split; [|exact Hi].
        intros d' ws. rewrite get_del. destruct (eqb d' d); [discriminate|apply H2].
    Qed.

    Lemma sys_unindex_none d s D : sysinv s D -> get D d = None -> base_unindex_doc d s = (s, Ok tt).
    Proof.
      intros (H1 & H2 & H3) Hd. apply (unindex_none rnd fr d s _ H3). rewrite get_idmap, Hd. reflexivity.
    Qed.

    Lemma sys_clear s : bij (slx s) -> sysinv (mkSys (slx s) (ix_clear (six s))) empty.
    Proof.
      intros Hb. split; [exact Hb|]. split; [intros d ws; rewrite get_empty; discriminate|].
      cbn [slx six]. rewrite idmap_empty. apply ixinv_clear.
    Qed.
    Lemma sys_new : sysinv (mkSys lex_new ix_new) empty.
    Proof.
      split; [apply bij_new|]. split; [intros d ws; rewrite get_empty; discriminate|].
      cbn [slx six]. rewrite idmap_empty. apply ixinv_new.
    Qed.

    (** ** What can be observed *)
    Lemma get_words_D s D d : sysinv s D ->
      get_words (six s) d = match get D d with Some ws => Ok (ids (slx s) ws) | None => Raise KeyError end.
    Proof.
      intros (H1 & H2 & H3). rewrite (get_words_E rnd fr _ _ _ H3), get_idmap. destruct (get D d); reflexivity.
    Qed.

    Lemma words_back s D d ws : sysinv s D -> get D d = Some ws ->
      mapM (get_word (slx s)) (ids (slx s) ws) = Ok ws.
    Proof.
      intros (H1 & H2 & H3) Hd. unfold ids. pose proof (H2 d ws Hd) as Hk. clear Hd.
      induction ws as [|w ws IH]; [reflexivity|]. cbn [map mapM].
      destruct (Hk w (or_introl eq_refl)) as [i Hi]. unfold get_word at 1, get_wid at 1. rewrite Hi.
      destruct H1 as (H1 & _). apply H1 in Hi. rewrite Hi. cbn [bind]. rewrite IH; [reflexivity|].
      intros w' Hw'. apply Hk. right. exact Hw'.
    Qed.

    (** the weight that the subclass computes for a word in a document *)
    Definition weight_in (lx : lex) (ws : list str) (w : str) : option V := get (fst (fr (ids lx ws))) (get_wid lx w).

    Lemma weight_in_In s D d ws w : sysinv s D -> get D d = Some ws ->
      ((exists v, weight_in (slx s) ws w = Some v) <-> In w ws).
    Proof.
      intros (H1 & H2 & H3) Hd. unfold weight_in. rewrite <- mem_get, freqs_keys.
      apply in_ids; [exact H1|exact (H2 d ws Hd)].
    Qed.

    Lemma posting_D s D w d : sysinv s D ->
      exists p, (forall v, stored rnd p v = v \/ stored rnd p v = rnd v) /\
      get (posting_of s w) d = match get D d with Some ws => option_map (stored rnd p) (weight_in (slx s) ws w) | None => None end.
    Proof.
      intros (H1 & H2 & H3). pose proof (proj1 (iv_info _ _ _ _ H3) (get_wid (slx s) w)) as Hp.
      unfold posting_of. destruct (get (wordinfo (six s)) (get_wid (slx s) w)) as [p|].
      - exists p. split; [intros v; unfold stored; destruct (p_dict p); auto|].
        destruct Hp as [_ Hp]. rewrite Hp. unfold targets. rewrite get_idmap. destruct (get D d); reflexivity.
      - exists (mkPosting true empty). split; [intros v; left; reflexivity|]. rewrite get_empty.
        specialize (Hp d). unfold targets in Hp. rewrite get_idmap in Hp. destruct (get D d) as [ws|]; [|reflexivity].
        cbn [option_map] in Hp. unfold weight_in. rewrite Hp. reflexivity.
    Qed.

    Lemma posting_mem s D w d : sysinv s D ->
      (mem d (posting_of s w) = true <-> exists ws, get D d = Some ws /\ In w ws).
    Proof.
      intros H. destruct (posting_D s D w d H) as (p & _ & Hp). rewrite mem_get, Hp.
      destruct (get D d) as [ws|] eqn:Ed.
      - rewrite <- (weight_in_In s D d ws w H Ed) || idtac. split.
        + intros [v Hv]. exists ws. split; [reflexivity|]. apply (weight_in_In s D d ws w H Ed).
          destruct (weight_in (slx s) ws w) as [v'|]; [eauto|discriminate].
        + intros (ws' & [= <-] & Hw). apply (weight_in_In s D d ws w H Ed) in Hw as [v ->]. cbn [option_map]. eauto.
      - split; [intros [v Hv]; discriminate|intros (ws & ? & _); discriminate].
    Qed.

    Lemma posting_val s D w d ws v : sysinv s D -> get D d = Some ws -> get (posting_of s w) d = Some v ->
      exists x, weight_in (slx s) ws w = Some x /\ (v = x \/ v = rnd x).
    Proof.
      intros H Ed Hv. destruct (posting_D s D w d H) as (p & Hst & Hp). rewrite Hp, Ed in Hv.
      destruct (weight_in (slx s) ws w) as [x|]; [|discriminate]. cbn [option_map] in Hv. injection Hv as <-.
      exists x. split; [reflexivity|]. destruct (Hst x); auto.
    Qed.

    Lemma weight_D s D d : sysinv s D ->
      get (docweight (six s)) d = option_map (fun ws => rnd (snd (fr (ids (slx s) ws)))) (get D d).
    Proof. intros (H1 & H2 & H3). rewrite (iv_weight _ _ _ _ H3), get_idmap. destruct (get D d); reflexivity. Qed.

    Lemma wordinfo_keys s D : sysinv s D ->
      Permutation (keys (wordinfo (six s))) (ids (slx s) (vocabulary D)).
    Proof.
      intros H. pose proof H as (H1 & H2 & H3).
      assert (Hk : forall w, In w (vocabulary D) -> exists i, get (lwids (slx s)) w = Some i).
      { intros w Hw. apply vocabulary_In in Hw as (d & ws & Hd & Hw). exact (H2 d ws Hd w Hw). }
      apply NoDup_Permutation.
      - apply keys_NoDup.
      - pose proof (proj1 (distinct_spec (concat (vals D)))) as Hn. fold (vocabulary D) in Hn.
        revert Hk. induction Hn as [|w l Hw Hn IH]; intros Hk; [constructor|]. cbn [ids map]. constructor.
        + intros Hin. apply (in_ids (slx s) l w H1) in Hin; [contradiction|]. intros w' Hw'. apply Hk. right. exact Hw'.
        + apply IH. intros w' Hw'. apply Hk. right. exact Hw'.
      - intros i. rewrite keys_In. pose proof (proj1 (iv_info _ _ _ _ H3) i) as Hp. split.
        + intros [p Ep]. rewrite Ep in Hp. destruct Hp as [[d Hd] _]. unfold targets in Hd. rewrite get_idmap in Hd.
          destruct (get D d) as [ws|] eqn:Ed; [|contradiction]. cbn [option_map] in Hd.
          destruct (get (fst (fr (ids (slx s) ws))) i) as [v|] eqn:Ev; [|contradiction].
          assert (Hi : In i (ids (slx s) ws)) by (apply freqs_keys, mem_get; eauto).
          apply in_map_iff in Hi as (w & <- & Hw). apply in_map. apply vocabulary_In. eauto.
        + intros Hi. apply in_map_iff in Hi as (w & <- & Hw). apply vocabulary_In in Hw as (d & ws & Hd & Hw).
          destruct (get (wordinfo (six s)) (get_wid (slx s) w)) as [p|]; [eauto|exfalso].
          specialize (Hp d). unfold targets in Hp. rewrite get_idmap, Hd in Hp. cbn [option_map] in Hp.
          apply (weight_in_In s D d ws w H Hd) in Hw as [v Hv]. unfold weight_in in Hv. congruence.
    Qed.

    Lemma counts_D s D : sysinv s D ->
      documentCount (six s) = Zsize D /\ wordCount (six s) = Zlen (vocabulary D).
    Proof.
      intros H. pose proof H as (H1 & H2 & H3). split.
      - rewrite (iv_count _ _ _ _ H3). apply idmap_size.
      - rewrite (proj2 (iv_info _ _ _ _ H3)). pose proof (Permutation_length (wordinfo_keys s D H)) as HL.
        unfold Zsize, size, Zlen. unfold keys, ids in HL. rewrite !map_length in HL. f_equal. exact HL.
    Qed.

    (** ** Histories *)
    Section Histories.
      Variable index_doc : Z -> ltext -> sx (sys V) Z.
      Variable unindex_doc : Z -> sx (sys V) unit.
      (** [G] is a ghost: the total document length *)
      Variable gstep : smap Z (list str) -> Z -> top -> Z.
      Definition full (s : sys V) (D : smap Z (list str)) (g : Z) : Prop := sysinv s D /\ totaldoclen (six s) = g.
      Hypothesis index_full : forall s D g d t, full s D g -> small (lex_step pipeline (slx s) (LText t)) ->
        exists s', index_doc d t s = (s', Ok (Zlen (words t))) /\ slx s' = lex_step pipeline (slx s) (LText t) /\
          full s' (put d (words t) D) (gstep D g (TIndex d t)).
      Hypothesis unindex_full : forall s D g d, full s D g ->
        exists s', unindex_doc d s = (s', Ok tt) /\ slx s' = slx s /\ full s' (del d D) (gstep D g (TUnindex d)).
      Hypothesis clear_g : forall D g, gstep D g TClear = g.
      Hypothesis other_g : forall D g o, gstep D g (TOther o) = g.

      Definition gfold (Dg : smap Z (list str) * Z) (h : list top) : smap Z (list str) * Z :=
        fold_left (fun Dg o => (docs_step pipeline (fst Dg) o, gstep (fst Dg) (snd Dg) o)) h Dg.

      Lemma lex_hist_app h1 h2 : lex_hist (h1 ++ h2) = lex_hist h1 ++ lex_hist h2.
      Proof. unfold lex_hist. apply flat_map_app. Qed.

      Lemma run_full h : forall s D g, full s D g -> counter_ok (lex_hist h) ->
        small (fold_left (lex_step pipeline) (lex_hist h) (slx s)) ->
        exists s', siter (op_step pipeline index_doc unindex_doc) h s = (s', Ok tt) /\
          slx s' = fold_left (lex_step pipeline) (lex_hist h) (slx s) /\
          full s' (fst (gfold (D, g) h)) (snd (gfold (D, g) h)).
      Proof.
        induction h as [|o h IH]; intros s D g Hf Hc Hs.
        - exists s. split; [reflexivity|]. split; [reflexivity|exact Hf].
        - assert (Hb : bij (slx s)) by apply Hf.
          pose proof (lex_hist_app [o] h) as Hlh. cbn [app] in Hlh. rewrite Hlh in *. clear Hlh.
          assert (Hc1 : counter_ok (lex_hist [o])) by (intros n Hn; apply Hc, in_or_app; auto).
          assert (Hc2 : counter_ok (lex_hist h)) by (intros n Hn; apply Hc, in_or_app; auto).
          rewrite fold_left_app in Hs.
          assert (Hx : exists s1, op_step pipeline index_doc unindex_doc o s = (s1, Ok tt) /\
            slx s1 = fold_left (lex_step pipeline) (lex_hist [o]) (slx s) /\
            full s1 (docs_step pipeline D o) (gstep D g o)).
          { destruct (lex_fold_ok pipeline (lex_hist [o]) (slx s) Hb Hc1) as [Hb1 _].
            destruct (lex_fold_ok pipeline (lex_hist h) _ Hb1 Hc2) as [_ Hg].
            pose proof (small_grows _ _ Hg Hs) as Hs1. cbn [op_step docs_step].
            destruct o as [d t|d| |lo]; cbn [lex_hist flat_map app fold_left op_step docs_step] in *.
            - destruct (index_full s D g d t Hf Hs1) as (s1 & E & El & Hf1). exists s1. split; [|auto].
              unfold sbind. rewrite E. reflexivity.
            - destruct (unindex_full s D g d Hf) as (s1 & E & El & Hf1). exists s1. auto.
            - exists (mkSys (slx s) (ix_clear (six s))). split; [reflexivity|]. split; [reflexivity|].
              split; [apply sys_clear; exact Hb|]. rewrite clear_g. apply Hf.
            - eexists. split; [reflexivity|]. split; [reflexivity|]. rewrite other_g. split; [|apply Hf].
              destruct (lex_step_ok pipeline (slx s) lo Hb) as [Hb' Hg'].
              { intros n ->. apply Hc1. left. reflexivity. }
              apply sysinv_lex; [apply Hf|exact Hb'|exact Hg']. }
          destruct Hx as (s1 & E1 & El1 & Hf1). rewrite <- El1 in Hs.
          destruct (IH s1 _ _ Hf1 Hc2 Hs) as (s2 & E2 & El2 & Hf2). exists s2.
          split; [|split].
          + erewrite siter_cons; [exact E2|exact E1].
          + rewrite fold_left_app, <- El1. exact El2.
          + exact Hf2.
      Qed.

      Lemma gfold_docs h D g : fst (gfold (D, g) h) = fold_left (docs_step pipeline) h D.
      Proof. revert D g; induction h as [|o h IH]; intros D g; [reflexivity|]. cbn. apply IH. Qed.

      Lemma run_ok h : history_ok pipeline h ->
        exists s, run_ops pipeline index_doc unindex_doc h = (s, Ok tt) /\
          slx s = lex_run pipeline (lex_hist h) /\ sysinv s (docs_of pipeline h) /\
          totaldoclen (six s) = snd (gfold (empty, 0) h).
      Proof.
        intros [Hc Hs]. destruct (run_full h (mkSys lex_new ix_new) empty 0) as (s & E & El & Hf & Ht).
        - split; [apply sys_new|reflexivity].
        - exact Hc.
        - intros i w Hi. apply Hs. unfold lex_wids. apply keys_In. exists w. exact Hi.
        - exists s. rewrite gfold_docs in Hf. auto.
      Qed.
    End Histories.
  End Class.
End System.
