(** * Lemmas about searches, for any subclass *)
From Verif Require Import L_widcode L_lexicon L_setops L_baseindex L_textsys L_okapi S_text S_setops S_score Ord.

Lemma filter_len {A} (f : A -> bool) l : (length (filter f l) <= length l)%nat.
Proof. induction l as [|x l IH]; cbn [filter]; [lia|]. destruct (f x); cbn [length]; lia. Qed.

Lemma filter_all {A} (f : A -> bool) l : (forall x, In x l -> f x = true) -> filter f l = l.
Proof.
  induction l as [|x l IH]; intros H; cbn [filter]; [reflexivity|]. rewrite (H x (or_introl eq_refl)). f_equal.
  apply IH. intros y Hy. apply H. right. exact Hy.
Qed.

Section Searches.
  Variable pipeline : list elem.
  Local Notation words t := (text_words pipeline t).
  Context {V : Type}.
  Variable rnd : V -> V.
  Variable fr : list Z -> smap Z V * V.
  Hypothesis freqs_keys : forall wids w, mem w (fst (fr wids)) = true <-> In w wids.
  Context {F : Type} {AF : Arith F}.
  Variable search_wids : bindex V -> list Z -> res (list (smap Z F * F)).
  Variable s : sys V.
  Variable D : smap Z (list str).
  Hypothesis inv : sysinv rnd fr s D.
  Local Notation lx := (slx s).
  Local Notation ix := (six s).

  (** what the subclass computes for a word id *)
  Variable score_map : Z -> smap Z F.
  Variable score_weight : Z -> F.
  Hypothesis search_wids_ok : forall wids, (forall i, In i wids -> mem i (wordinfo ix) = true) ->
    search_wids ix wids = Ok (map (fun i => (score_map i, score_weight i)) wids).
  Hypothesis score_keys : forall w d, In w (vocabulary D) ->
    (mem d (score_map (get_wid lx w)) = true <-> exists ws, get D d = Some ws /\ In w ws).

  Lemma invocab w : mem (get_wid lx w) (wordinfo ix) = true <-> In w (vocabulary D).
  Proof.
    pose proof inv as (H1 & H2 & H3). rewrite <- keys_mem. pose proof (wordinfo_keys rnd fr freqs_keys s D inv) as HP. split.
    - intros Hin. apply (Permutation_in _ HP) in Hin. apply (in_ids lx); [exact H1| |exact Hin].
      intros w' Hw'. apply vocabulary_In in Hw' as (d & ws & Hd & Hw'). exact (H2 d ws Hd w' Hw').
    - intros Hin. apply (Permutation_in _ (Permutation_sym HP)). apply in_map. exact Hin.
  Qed.
  Lemma invocab_b w : mem (get_wid lx w) (wordinfo ix) = existsb (eqb w) (vocabulary D).
  Proof. apply bool_eq_iff. rewrite invocab, existsb_eqb_In. reflexivity. Qed.

  Definition inv_words (ws : list str) : list str := filter (fun w => existsb (eqb w) (vocabulary D)) ws.
  Lemma remove_oov_ids ws : remove_oov ix (ids lx ws) = ids lx (inv_words ws).
  Proof.
    unfold remove_oov, ids, inv_words. induction ws as [|w ws IH]; [reflexivity|]. cbn [map filter].
    rewrite invocab_b, IH. destruct (existsb (eqb w) (vocabulary D)); reflexivity.
  Qed.
  Lemma inv_words_In ws w : In w (inv_words ws) <-> In w ws /\ In w (vocabulary D).
  Proof. unfold inv_words. rewrite filter_In, existsb_eqb_In. reflexivity. Qed.
  Lemma in_vocab d ws w : get D d = Some ws -> In w ws -> In w (vocabulary D).
  Proof. intros. apply vocabulary_In. eauto. Qed.

  Definition pairs (ws : list str) : list (smap Z F * F) :=
    map (fun w => (score_map (get_wid lx w), score_weight (get_wid lx w))) ws.
  Lemma search_wids_words ws : (forall w, In w ws -> In w (vocabulary D)) -> search_wids ix (ids lx ws) = Ok (pairs ws).
  Proof.
    intros H. rewrite search_wids_ok.
    - unfold ids, pairs. rewrite map_map. reflexivity.
    - intros i Hi. apply in_map_iff in Hi as (w & <- & Hw). apply invocab. auto.
  Qed.

  Definition contains_some (ws q : list str) : Prop := exists w, In w q /\ In w ws.

  Lemma union_docs q : exists m, mass_weightedUnion (pairs (inv_words q)) = Ok m /\
    forall d, mem d m = true <-> exists ws, get D d = Some ws /\ contains_some ws q.
  Proof.
    destruct (mass_union_keys (pairs (inv_words q))) as (m & E & Hm). exists m. split; [exact E|]. intros d. rewrite Hm.
    rewrite existsb_exists. split.
    - intros (p & Hp & Hd). apply in_map_iff in Hp as (w & <- & Hw). apply inv_words_In in Hw as [Hw Hv].
      apply (score_keys w d Hv) in Hd as (ws & Ed & Hd). exists ws. split; [exact Ed|]. exists w. auto.
    - intros (ws & Ed & w & Hw & Hin). pose proof (in_vocab d ws w Ed Hin) as Hv.
      eexists. split; [apply in_map, inv_words_In; split; eassumption|]. cbn [fst]. apply score_keys; eauto.
  Qed.

  Lemma search_docs t :
    match words t with
    | [] => search pipeline search_wids s t = Ok None
    | _ => exists m, search pipeline search_wids s t = Ok (Some m) /\
        forall d, mem d m = true <-> exists ws, get D d = Some ws /\ contains_some ws (words t)
    end.
  Proof.
    unfold search, termToWordIds. change (run_pipeline pipeline (text2list t)) with (words t). destruct (words t) as [|w0 l] eqn:E; [reflexivity|].
    destruct (union_docs (w0 :: l)) as (m & Em & Hm). exists m. split; [|exact Hm].
    cbn [map]. change (get_wid lx w0 :: map (get_wid lx) l) with (ids lx (w0 :: l)). rewrite remove_oov_ids.
    rewrite search_wids_words by (intros w Hw; apply inv_words_In in Hw; apply Hw). cbn [bind]. rewrite Em. reflexivity.
  Qed.

  (** ** Globs *)
  Lemma oov_wids_words wids : (forall i, In i wids -> exists w, get (lwids lx) w = Some i) ->
    exists ws, wids = ids lx ws /\ forall w, In w ws -> exists i, In i wids /\ get (lwids lx) w = Some i.
  Proof.
    induction wids as [|i wids IH]; intros H.
    - exists []. split; [reflexivity|intros w []].
    - destruct IH as (ws & E & Hw); [intros j Hj; apply H; right; exact Hj|].
      destruct (H i (or_introl eq_refl)) as [w Ew]. exists (w :: ws). split.
      + cbn [ids map]. unfold get_wid at 1. rewrite Ew. f_equal. exact E.
      + intros w' [<-|Hw']; [exists i; split; [left; reflexivity|exact Ew]|].
        destruct (Hw w' Hw') as (j & Hj & Ej). exists j. split; [right; exact Hj|exact Ej].
  Qed.

  Lemma search_glob_docs pattern (P : str -> Prop) wids :
    globToWordIds pattern lx = Ok wids ->
    (forall i, In i wids <-> exists w, get (lwids lx) w = Some i /\ P w) ->
    exists m, search_glob search_wids s pattern = Ok m /\
      forall d, mem d m = true <-> exists ws, get D d = Some ws /\ exists w, In w ws /\ P w.
  Proof.
    intros Hg Hw. pose proof inv as (H1 & H2 & H3).
    destruct (oov_wids_words wids) as (q & Eq & Hq).
    { intros i Hi. apply Hw in Hi as (w & Ew & _). eauto. }
    destruct (union_docs q) as (m & Em & Hm). exists m. split.
    - unfold search_glob. rewrite Hg. cbn [bind]. rewrite Eq, remove_oov_ids.
      rewrite search_wids_words by (intros w Hin; apply inv_words_In in Hin; apply Hin). cbn [bind]. exact Em.
    - intros d. rewrite Hm. split.
      + intros (ws & Ed & w & Hin & Hws). exists ws. split; [exact Ed|]. exists w. split; [exact Hws|].
        destruct (Hq w Hin) as (i & Hi & Ei). apply Hw in Hi as (w' & Ew' & HP).
        destruct H1 as (H1 & _). apply H1 in Ei, Ew'. congruence.
      + intros (ws & Ed & w & Hws & HP). exists ws. split; [exact Ed|]. exists w. split; [|exact Hws].
        destruct (H2 d ws Ed w Hws) as [i Ei]. assert (Hi : In i wids) by (apply Hw; eauto).
        rewrite Eq in Hi. apply in_map_iff in Hi as (w' & Ew' & Hw').
        destruct (Hq w' Hw') as (j & _ & Ej). unfold get_wid in Ew'. rewrite Ej in Ew'. subst j.
        destruct H1 as (H1 & _). apply H1 in Ei, Ej. congruence.
  Qed.

  (** ** Phrases *)
  Lemma phrase_loop_ok code hits result : (forall d v, In (d, v) hits -> exists ws, get D d = Some ws) ->
    exists m, phrase_loop ix code hits result = Ok m /\
      forall d, mem d m = true <-> mem d result = true \/
        exists v ws, In (d, v) hits /\ get D d = Some ws /\ str_contains (codes (ids lx ws)) code = true.
  Proof.
    revert result; induction hits as [|[d0 v0] hits IH]; intros result H; cbn [phrase_loop].
    - exists result. split; [reflexivity|]. intros d. split; [auto|]. intros [Hd|(v & ws & [] & _)]. exact Hd.
    - destruct (H d0 v0 (or_introl eq_refl)) as [ws0 E0]. pose proof inv as (H1 & H2 & H3).
      unfold item. rewrite (iv_words _ _ _ _ H3), get_idmap, E0. cbn [option_map bind].
      destruct (IH (if str_contains (codes (ids lx ws0)) code then put d0 (f32 v0) result else result)) as (m & E & Hm).
      { intros d v Hin. apply (H d v). right. exact Hin. }
      exists m. split; [exact E|]. intros d. rewrite Hm. split.
      + intros [Hd|(v & ws & Hin & Hd & Hc)]; [|right; exists v, ws; split; [right; exact Hin|auto]].
        destruct (str_contains (codes (ids lx ws0)) code) eqn:Ec; [|auto].
        rewrite mem_put in Hd. apply orb_true_iff in Hd as [Hd|Hd]; [|auto].
        apply eqb_eq in Hd as ->. right. exists v0, ws0. split; [left; reflexivity|auto].
      + intros [Hd|(v & ws & [[= -> ->]|Hin] & Hd & Hc)].
        * left. destruct (str_contains _ _); [rewrite mem_put, Hd, orb_true_r; reflexivity|exact Hd].
        * left. rewrite E0 in Hd. injection Hd as ->. rewrite Hc, mem_put, eqb_refl. reflexivity.
        * right. eauto.
  Qed.

  Lemma inv_words_len ws : Zlen (inv_words ws) = Zlen ws -> forall w, In w ws -> In w (vocabulary D).
  Proof.
    unfold Zlen. intros H w Hw. apply inv_words_In with (ws := ws).
    assert (Hf : inv_words ws = ws).
    { unfold inv_words in *. apply Nat2Z.inj in H. clear Hw. induction ws as [|x ws IH]; [reflexivity|]. cbn [filter] in *.
      destruct (existsb (eqb x) (vocabulary D)) eqn:E.
      - cbn [length] in H. f_equal. apply IH. lia.
      - pose proof (filter_len (fun w => existsb (eqb w) (vocabulary D)) ws) as Hl. rewrite H in Hl. cbn [length] in Hl. lia. }
    rewrite Hf. exact Hw.
  Qed.

  Lemma phrase_docs t : exists m, search_phrase pipeline search_wids s t = Ok m /\
    forall d, mem d m = true <->
      words t <> [] /\ exists ws, get D d = Some ws /\ (forall w, In w (words t) -> In w ws) /\
        str_contains (codes (ids lx ws)) (codes (ids lx (words t))) = true.
  Proof.
    unfold search_phrase, termToWordIds. change (run_pipeline pipeline (text2list t)) with (words t). fold (ids lx (words t)). rewrite remove_oov_ids, !ids_len.
    destruct (Zlen (words t) =? Zlen (inv_words (words t))) eqn:El; cbn [negb].
    - assert (Hv : forall w, In w (words t) -> In w (vocabulary D)) by (apply inv_words_len; lia).
      rewrite (search_wids_words _ Hv). cbn [bind]. set (L0 := map _ (pairs _)).
      destruct (mass_inter_keys L0) as (hits & Eh & Hh). rewrite Eh. cbn [bind].
      assert (HL : not_none L0 = pairs (words t)).
      { unfold L0, not_none. rewrite map_map. cbn [fst snd]. clear. induction (pairs (words t)) as [|[p q] l IH]; [reflexivity|].
        cbn [map concat app fst snd]. f_equal. exact IH. }
      rewrite HL in Hh.
      assert (Hhits : forall d, mem d hits = true <-> words t <> [] /\ exists ws, get D d = Some ws /\ forall w, In w (words t) -> In w ws).
      { intros d. rewrite Hh, andb_true_iff, negb_true_iff, forallb_forall. split.
        - intros [Hn Ha]. destruct (words t) as [|w0 l] eqn:Ew; [discriminate|]. split; [discriminate|].
          assert (H0 : mem d (score_map (get_wid lx w0)) = true).
          { apply (Ha (score_map (get_wid lx w0), score_weight (get_wid lx w0))). left. reflexivity. }
          apply (score_keys w0 d (Hv w0 (or_introl eq_refl))) in H0 as (ws & Ed & _). exists ws. split; [exact Ed|].
          intros w Hw. assert (Hm : mem d (score_map (get_wid lx w)) = true).
          { apply (Ha (score_map (get_wid lx w), score_weight (get_wid lx w))). apply in_map_iff. eauto. }
          apply (score_keys w d (Hv w Hw)) in Hm as (ws' & Ed' & Hin). congruence.
        - intros (Hn & ws & Ed & Ha). split; [destruct (words t); [contradiction|reflexivity]|].
          intros p Hp. apply in_map_iff in Hp as (w & <- & Hw). cbn [fst]. apply score_keys; [auto|]. eauto. }
      destruct (is_empty hits) eqn:Ee.
      + exists hits. split; [reflexivity|]. intros d. rewrite Hhits. split.
        * intros Hd. apply Hhits in Hd. apply mem_get in Hd as [v Hv']. apply is_empty_get with (k := d) in Ee. congruence.
        * intros (Hn & ws & Ed & Ha & _). eauto.
      + rewrite encode_concat.
        * cbn [bind]. destruct (phrase_loop_ok (concat (map code (ids lx (words t)))) (elts hits) empty) as (m & Em & Hm).
          { intros d v Hin. apply get_In in Hin. assert (Hd : mem d hits = true) by (apply mem_get; eauto).
            apply Hhits in Hd as (_ & ws & Ed & _). eauto. }
          exists m. split; [exact Em|]. intros d. rewrite Hm. split.
          -- intros [Hd|(v & ws & Hin & Ed & Hc)]; [discriminate|].
             assert (Hd : mem d hits = true) by (apply mem_get; exists v; apply get_In; exact Hin).
             apply Hhits in Hd as (Hn & ws' & Ed' & Ha). split; [exact Hn|]. exists ws.
             assert (ws' = ws) by congruence. subst ws'. auto.
          -- intros (Hn & ws & Ed & Ha & Hc). right. assert (Hd : mem d hits = true) by (apply Hhits; eauto).
             apply mem_get in Hd as [v Hv']. exists v, ws. split; [apply get_In; exact Hv'|auto].
        * pose proof inv as (H1 & H2 & H3). apply Forall_forall. intros i Hi. apply in_map_iff in Hi as (w & <- & Hw).
          specialize (Hv w Hw). apply vocabulary_In in Hv as (d & ws & Ed & Hin).
          pose proof (iv_range _ _ _ _ H3 d (ids lx ws)) as Hr. rewrite get_idmap, Ed in Hr. specialize (Hr eq_refl).
          rewrite Forall_forall in Hr. apply Hr. apply in_map. exact Hin.
    - exists empty. split; [reflexivity|]. intros d. split; [discriminate|]. intros (Hn & ws & Ed & Ha & _). exfalso.
      assert (Hf : inv_words (words t) = words t).
      { unfold inv_words. apply filter_all. intros w Hw. apply existsb_eqb_In.
        exact (in_vocab d ws w Ed (Ha w Hw)). }
      rewrite Hf in El. lia.
  Qed.

  (** the doc and phrase codes are in range *)
  Lemma doc_range d ws : get D d = Some ws -> Forall wid_ok (ids lx ws).
  Proof.
    pose proof inv as (H1 & H2 & H3). intros Ed. pose proof (iv_range _ _ _ _ H3 d (ids lx ws)) as Hr.
    rewrite get_idmap, Ed in Hr. exact (Hr eq_refl).
  Qed.

  Lemma ids_inj ws ws' d : get D d = Some ws -> (forall w, In w ws' -> In w ws) ->
    forall a, incl a ws -> ids lx a = ids lx ws' -> a = ws'.
  Proof.
    pose proof inv as (H1 & H2 & H3). intros Ed Hw a Ha E. revert ws' Hw E.
    induction a as [|x a IH]; intros [|y l] Hw E; try discriminate; [reflexivity|].
    cbn [ids map] in E. injection E as E1 E2. f_equal.
    - destruct (H2 d ws Ed y (Hw y (or_introl eq_refl))) as [i Hi]. exact (get_wid_inj _ _ _ _ H1 Hi E1).
    - apply IH; [intros z Hz; apply Ha; right; exact Hz|intros z Hz; apply Hw; right; exact Hz|exact E2].
  Qed.

  Lemma contiguous_ids d ws q : get D d = Some ws -> (forall w, In w q -> In w ws) ->
    (contiguous (ids lx q) (ids lx ws) <-> contiguous q ws).
  Proof.
    intros Ed Hq. split.
    - intros (a & b & E). unfold ids in E.
      destruct (map_eq_app _ _ _ _ E) as (l1 & l2 & E1 & E2 & E3).
      destruct (map_eq_app _ _ _ _ E3) as (l3 & l4 & E4 & E5 & E6).
      assert (Hl : l3 = q).
      { apply (ids_inj ws q d Ed Hq); [|exact E5]. intros x Hx. subst ws l2. apply in_or_app. right. apply in_or_app. left. exact Hx. }
      subst. exists l1, l4. reflexivity.
    - intros (a & b & ->). exists (ids lx a), (ids lx b). unfold ids. rewrite !map_app. reflexivity.
  Qed.

  Lemma phrase_complete t d ws : words t <> [] -> get D d = Some ws -> contiguous (words t) ws ->
    exists m, search_phrase pipeline search_wids s t = Ok m /\ mem d m = true.
  Proof.
    intros Hn Ed Hc. destruct (phrase_docs t) as (m & Em & Hm). exists m. split; [exact Em|]. apply Hm. split; [exact Hn|].
    exists ws. split; [exact Ed|]. split.
    - intros w Hw. destruct Hc as (a & b & ->). apply in_or_app. right. apply in_or_app. left. exact Hw.
    - apply str_contains_spec. apply contiguous_encode. destruct Hc as (a & b & ->). exists (ids lx a), (ids lx b).
      unfold ids. rewrite !map_app. reflexivity.
  Qed.

  (** an occurrence of the code of a phrase *)
  Lemma contains_iff d ws init l : get D d = Some ws -> (forall w, In w (init ++ [l]) -> In w ws) ->
    (str_contains (codes (ids lx ws)) (codes (ids lx (init ++ [l]))) = true <->
     exists l', contiguous (init ++ [l']) ws /\
       (l' = l \/ exists k, 1 <= k <= 3 /\ get_wid lx l' / 128 ^ k = get_wid lx l)).
  Proof using inv.
    clear search_wids_ok score_keys score_map score_weight search_wids freqs_keys. intros Ed Ha. pose proof inv as (H1 & H2 & H3). pose proof (doc_range d ws Ed) as Hr.
      assert (Hrq : Forall wid_ok (ids lx (init ++ [l]))).
      { apply Forall_forall. intros i Hi. apply in_map_iff in Hi as (w & <- & Hw). rewrite Forall_forall in Hr.
        apply Hr. apply in_map. auto. }
      assert (Eids : ids lx (init ++ [l]) = ids lx init ++ [get_wid lx l]) by (unfold ids; rewrite map_app; reflexivity).
      rewrite Eids in *.
      rewrite (widcode_find_iff (ids lx init) (get_wid lx l) (ids lx ws) (codes (ids lx init ++ [get_wid lx l])) (codes (ids lx ws)) Hrq Hr
        (encode_concat _ Hrq) (encode_concat _ Hr)).
      assert (Hlpos : get_wid lx l <> 0).
      { destruct (H2 d ws Ed l) as [i Hi]; [apply Ha, in_or_app; right; left; reflexivity|]. unfold get_wid. rewrite Hi.
        destruct H1 as (H1 & Hp & _). apply H1 in Hi. apply Hp in Hi. lia. }
      split.
      - intros (i & Hc & Hi). destruct Hc as (a & b & E). unfold ids in E.
        destruct (map_eq_app _ _ _ _ E) as (l1 & l2 & E1 & E2 & E3).
        destruct (map_eq_app _ _ _ _ E3) as (l3 & l4 & E4 & E5 & E6).
        destruct (map_eq_app _ _ _ _ E5) as (l5 & l6 & E7 & E8 & E9).
        destruct l6 as [|l' [|? ?]]; try discriminate. injection E9 as E9.
        assert (Hsub : forall x, In x l3 -> In x ws).
        { intros x Hx. subst ws l2. apply in_or_app. right. apply in_or_app. left. exact Hx. }
        assert (l5 = init).
        { apply (ids_inj ws init d Ed); [intros w Hw; apply Ha, in_or_app; left; exact Hw| |exact E8].
          intros x Hx. apply Hsub. subst l3. apply in_or_app. left. exact Hx. }
        exists l'. split; [exists l1, l4; subst; reflexivity|]. destruct Hi as [->|(_ & k & Hk & Hi)].
        + left. destruct (H2 d ws Ed l) as [j Hj]; [apply Ha, in_or_app; right; left; reflexivity|].
          exact (get_wid_inj _ _ _ _ H1 Hj E9).
        + right. exists k. split; [exact Hk|]. rewrite E9. exact Hi.
      - intros (l' & (a & b & E) & Hi). exists (get_wid lx l'). split.
        + exists (ids lx a), (ids lx b). rewrite E. unfold ids. rewrite !map_app. reflexivity.
        + destruct Hi as [->|(k & Hk & Hi)]; [left; reflexivity|right; eauto].
  Qed.
  Lemma phrase_iff t d init l : words t = init ++ [l] ->
    exists m, search_phrase pipeline search_wids s t = Ok m /\
    (mem d m = true <-> exists ws, get D d = Some ws /\ (forall w, In w (words t) -> In w ws) /\
       exists l', contiguous (init ++ [l']) ws /\
         (l' = l \/ exists k, 1 <= k <= 3 /\ get_wid lx l' / 128 ^ k = get_wid lx l)).
  Proof.
    intros Ew. destruct (phrase_docs t) as (m & Em & Hm). exists m. split; [exact Em|]. rewrite Hm.
    pose proof inv as (H1 & H2 & H3).
    assert (Hx : forall ws, get D d = Some ws -> (forall w, In w (words t) -> In w ws) ->
      (str_contains (codes (ids lx ws)) (codes (ids lx (words t))) = true <->
       exists l', contiguous (init ++ [l']) ws /\
         (l' = l \/ exists k, 1 <= k <= 3 /\ get_wid lx l' / 128 ^ k = get_wid lx l)))
      by (rewrite Ew; intros ws; apply contains_iff).
    split.
    - intros (_ & ws & Ed & Ha & Hc). exists ws. split; [exact Ed|]. split; [exact Ha|]. apply (Hx ws Ed Ha). exact Hc.
    - intros (ws & Ed & Ha & Hc). split; [rewrite Ew; destruct init; discriminate|]. exists ws. split; [exact Ed|].
      split; [exact Ha|]. apply (Hx ws Ed Ha). exact Hc.
  Qed.

  Lemma phrase_exact t d : words t <> [] -> (forall w, In w (vocabulary D) -> get_wid lx w < 128) ->
    exists m, search_phrase pipeline search_wids s t = Ok m /\
    (mem d m = true <-> exists ws, get D d = Some ws /\ contiguous (words t) ws).
  Proof.
    intros Hn Hsm. destruct (exists_last Hn) as (init & l & Ew). pose proof inv as (H1 & H2 & H3).
    destruct (phrase_iff t d init l Ew) as (m & Em & Hm). exists m. split; [exact Em|]. rewrite Hm. split.
    - intros (ws & Ed & Ha & l' & Hc & Hl). exists ws. split; [exact Ed|]. rewrite Ew. destruct Hl as [->|(k & Hk & Hl)]; [exact Hc|exfalso].
      assert (Hl' : In l' ws) by (destruct Hc as (a & b & ->); apply in_or_app; right; apply in_or_app; left; apply in_or_app; right; left; reflexivity).
      pose proof (Hsm l' (in_vocab d ws l' Ed Hl')) as Hlt.
      destruct (H2 d ws Ed l') as [i Hi]; [exact Hl'|].
      destruct (H2 d ws Ed l) as [j Hj]; [apply Ha; rewrite Ew; apply in_or_app; right; left; reflexivity|].
      unfold get_wid in Hl, Hlt. rewrite Hi in Hl, Hlt. rewrite Hj in Hl. destruct H1 as (H1 & Hp & _). apply H1 in Hi, Hj.
      apply Hp in Hi, Hj. assert (128 <= 128 ^ k) by (change 128 with (128 ^ 1) at 1; apply Z.pow_le_mono_r; lia).
      rewrite Z.div_small in Hl by lia. lia.
    - intros (ws & Ed & Hc). exists ws. split; [exact Ed|]. split.
      + intros w Hw. destruct Hc as (a & b & ->). apply in_or_app. right. apply in_or_app. left. exact Hw.
      + exists l. rewrite <- Ew. split; [exact Hc|]. left. reflexivity.
  Qed.

  (** ** Scores, in exact arithmetic *)
  Context {XF : ExactArith F}.
  Variable c : str -> list str -> F.
  Hypothesis score_val : forall w d ws, get D d = Some ws -> In w ws ->
    exists v, get (score_map (get_wid lx w)) d = Some v /\ fmul v (score_weight (get_wid lx w)) = c w ws.

  Lemma contribs_words q d ws : get D d = Some ws ->
    contribs (pairs (inv_words q)) d = map (fun w => c w ws) (filter (contains ws) q).
  Proof.
    intros Ed. unfold contribs, pairs, inv_words. induction q as [|w q IH]; [reflexivity|]. cbn [filter].
    destruct (contains ws w) eqn:Ec.
    - apply existsb_eqb_In in Ec. pose proof (in_vocab d ws w Ed Ec) as Hv. apply existsb_eqb_In in Hv. rewrite Hv.
      cbn [map concat fst snd]. destruct (score_val w d ws Ed Ec) as (v & Ev & Hc). rewrite Ev, Hc. cbn [app]. f_equal. exact IH.
    - destruct (existsb (eqb w) (vocabulary D)) eqn:Hv; [|exact IH]. cbn [map concat fst snd].
      destruct (get (score_map (get_wid lx w)) d) as [v|] eqn:Ev; [exfalso|exact IH].
      apply existsb_eqb_In in Hv. assert (Hm : mem d (score_map (get_wid lx w)) = true) by (apply mem_get; eauto).
      apply (score_keys w d Hv) in Hm as (ws' & Ed' & Hin). assert (ws' = ws) by congruence. subst.
      apply existsb_eqb_In in Hin. unfold contains in Ec. congruence.
  Qed.

  Lemma union_scores q m d ws : mass_weightedUnion (pairs (inv_words q)) = Ok m -> get D d = Some ws ->
    get m d = if existsb (contains ws) q then Some (words_score c q ws) else None.
  Proof.
    intros Em Ed. destruct (mass_union_spec (pairs (inv_words q))) as (m' & Em' & Hm). rewrite Em in Em'. injection Em' as <-.
    destruct (existsb (contains ws) q) eqn:E.
    - rewrite (proj1 (Hm d)); [unfold words_score; rewrite (contribs_words q d ws Ed); reflexivity|].
      apply existsb_exists in E as (w & Hw & Hc). apply existsb_eqb_In in Hc. apply Exists_exists.
      eexists. split; [apply in_map, inv_words_In; split; [exact Hw|exact (in_vocab d ws w Ed Hc)]|].
      destruct (score_val w d ws Ed Hc) as (v & Ev & _). exists v. exact Ev.
    - apply (Hm d). intros Hin. apply Exists_exists in Hin as (p & Hp & v & Hv). apply in_map_iff in Hp as (w & <- & Hw).
      apply inv_words_In in Hw as [Hw Hvo]. assert (Hmm : mem d (score_map (get_wid lx w)) = true) by (apply mem_get; eauto).
      apply (score_keys w d Hvo) in Hmm as (ws' & Ed' & Hin). assert (ws' = ws) by congruence. subst.
      apply existsb_eqb_In in Hin. assert (existsb (contains ws) q = true) by (apply existsb_exists; eauto). congruence.
  Qed.

  Lemma search_scores t m d ws : search pipeline search_wids s t = Ok (Some m) -> get D d = Some ws ->
    get m d = if existsb (contains ws) (words t) then Some (words_score c (words t) ws) else None.
  Proof.
    unfold search, termToWordIds. change (run_pipeline pipeline (text2list t)) with (words t). destruct (words t) as [|w0 l] eqn:E; [discriminate|].
    cbn [map]. change (get_wid lx w0 :: map (get_wid lx) l) with (ids lx (w0 :: l)). rewrite remove_oov_ids.
    rewrite search_wids_words by (intros w Hw; apply inv_words_In in Hw; apply Hw). cbn [bind].
    intros H Ed. apply bind_ok in H as (m' & Em & [= <-]). exact (union_scores _ _ _ _ Em Ed).
  Qed.

  Lemma phrase_loop_val code hits result d v : NoDup (map fst hits) ->
    (forall m, phrase_loop ix code hits result = Ok m -> get m d = Some v ->
      get result d = Some v \/ exists v', In (d, v') hits /\ v = f32 v').
  Proof.
    revert result; induction hits as [|[d0 v0] hits IH]; intros result Hn m; cbn [phrase_loop].
    - intros [= <-]. auto.
    - inversion Hn as [|? ? Hd0 Hn']; subst. intros H Hg. apply bind_ok in H as (wds & _ & H).
      destruct (IH _ Hn' m H Hg) as [Hr|(v' & Hin & Hv)]; [|right; exists v'; split; [right; exact Hin|exact Hv]].
      destruct (str_contains wds code); [|auto]. rewrite get_put in Hr. destruct (eqb d d0) eqn:E; [|auto].
      apply eqb_eq in E as ->. right. exists v0. split; [left; reflexivity|congruence].
  Qed.

  Lemma phrase_scores t m d ws v : search_phrase pipeline search_wids s t = Ok m -> get D d = Some ws -> get m d = Some v ->
    v = words_score c (words t) ws.
  Proof.
    intros H Ed Hv. assert (Hd : mem d m = true) by (apply mem_get; eauto).
    destruct (phrase_docs t) as (m' & Em' & Hm'). rewrite H in Em'. injection Em' as <-.
    apply Hm' in Hd as (Hn & ws' & Ed' & Ha & _). assert (ws' = ws) by congruence. subst ws'. clear Hm' Ed'.
    assert (Hvoc : forall w, In w (words t) -> In w (vocabulary D)) by (intros w Hw; exact (in_vocab d ws w Ed (Ha w Hw))).
    assert (Hinv : inv_words (words t) = words t).
    { apply filter_all. intros w Hw. apply existsb_eqb_In. auto. }
    unfold search_phrase, termToWordIds in H. change (run_pipeline pipeline (text2list t)) with (words t) in H. fold (ids lx (words t)) in H.
    rewrite remove_oov_ids, Hinv, Z.eqb_refl in H. cbn [negb] in H. rewrite (search_wids_words _ Hvoc) in H. cbn [bind] in H.
    destruct (mass_inter_spec (map (fun p => (Some (fst p), snd p)) (pairs (words t)))) as (hits & Eh & Hh).
    rewrite Eh in H. cbn [bind] in H.
    assert (HL : not_none (map (fun p => (Some (fst p), snd p)) (pairs (words t))) = pairs (words t)).
    { unfold not_none. rewrite map_map. cbn [fst snd]. clear. induction (pairs (words t)) as [|[p q] l IH]; [reflexivity|].
      cbn [map concat app fst snd]. f_equal. exact IH. }
    rewrite HL in Hh.
    assert (Hs : forall v', get hits d = Some v' -> v' = words_score c (words t) ws).
    { intros v' Hv'. rewrite (proj1 (Hh d)) in Hv'.
      - injection Hv' as <-. unfold words_score. rewrite <- Hinv at 1. rewrite (contribs_words _ d ws Ed). reflexivity.
      - split; [destruct (words t); [contradiction|discriminate]|]. apply Forall_forall. intros p Hp.
        apply in_map_iff in Hp as (w & <- & Hw). destruct (score_val w d ws Ed (Ha w Hw)) as (x & Ex & _). exists x. exact Ex. }
    destruct (is_empty hits); [injection H as <-; auto|]. apply bind_ok in H as (code & _ & H).
    destruct (phrase_loop_val code (elts hits) empty d v (keys_NoDup hits) m H Hv) as [Hr|(v' & Hin & ->)]; [discriminate|].
    rewrite f32_exact. apply Hs. apply get_In. exact Hin.
  Qed.

  Lemma glob_scores pattern wids : globToWordIds pattern lx = Ok wids -> NoDup wids ->
    (forall i, In i wids -> exists w, get (lwids lx) w = Some i) ->
    exists q m, search_glob search_wids s pattern = Ok m /\ NoDup q /\ wids = ids lx q /\
      forall d ws, get D d = Some ws ->
        get m d = if existsb (contains ws) q then Some (words_score c q ws) else None.
  Proof.
    intros Hg Hn Hk. destruct (oov_wids_words wids Hk) as (q & Eq & Hq).
    destruct (union_docs q) as (m & Em & _). exists q, m. splits.
    - unfold search_glob. rewrite Hg. cbn [bind]. rewrite Eq, remove_oov_ids.
      rewrite search_wids_words by (intros w Hin; apply inv_words_In in Hin; apply Hin). cbn [bind]. exact Em.
    - rewrite Eq in Hn. exact (NoDup_map_inv _ _ Hn).
    - exact Eq.
    - intros d ws Ed. exact (union_scores q m d ws Em Ed).
  Qed.
End Searches.
