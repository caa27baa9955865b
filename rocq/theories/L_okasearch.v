(** * Lemmas about searches in the Okapi index *)
From Verif Require Import L_widcode L_lexicon L_setops L_baseindex L_textsys L_okapi L_cosine L_search S_text S_setops S_score M_okapi Ord.

Lemma f32Z_pos n : 1 <= n -> 1 <= f32Z n.
Proof.
  intros H. unfold f32Z. destruct (Z.abs n <=? 2 ^ 24) eqn:E; [lia|]. rewrite Z.abs_eq by lia.
  assert (H24 : 2 ^ 24 < n) by lia.
  pose proof (Z.log2_spec n ltac:(lia)) as [Hl _].
  assert (24 <= Z.log2 n). { apply Z.log2_le_pow2; lia. }
  set (e := 2 ^ (Z.log2 n - 23)).
  assert (He : 1 <= e) by (unfold e; pose proof (Z.pow_pos_nonneg 2 (Z.log2 n - 23)); lia).
  assert (Hen : e <= n). { unfold e. pose proof (Z.pow_le_mono_r 2 (Z.log2 n - 23) (Z.log2 n)). lia. }
  assert (Hq : 1 <= n / e) by (apply Z.div_le_lower_bound; lia).
  rewrite Z.sgn_pos by lia.
  match goal with |- context [if ?b then _ else _] => destruct b end; nia.
Qed.

Lemma occurrences_pos w ws : In w ws -> 1 <= occurrences w ws.
Proof.
  intros H. unfold occurrences, Zlen. assert (Hin : In w (filter (eqb w) ws)) by (apply filter_In; split; [exact H|apply eqb_refl]).
  destruct (filter (eqb w) ws); [contradiction|]. cbn [length]. lia.
Qed.
Lemma occurrences_le w ws : occurrences w ws <= Zlen ws.
Proof. unfold occurrences, Zlen. pose proof (filter_len (eqb w) ws). lia. Qed.

Lemma docs_nonempty (D : smap Z (list str)) w : In w (vocabulary D) -> 1 <= Zsize D.
Proof.
  intros H. apply vocabulary_In in H as (d & ws & Hd & _). apply get_In in Hd. unfold Zsize, size.
  destruct (elts D); [contradiction|]. cbn [length]. lia.
Qed.
Lemma doc_freq_pos (D : smap Z (list str)) w : In w (vocabulary D) -> 1 <= doc_freq D w.
Proof.
  intros H. apply vocabulary_In in H as (d & ws & Hd & Hw). unfold doc_freq, Zlen.
  assert (Hin : In ws (filter (fun ws => contains ws w) (vals D))).
  { apply filter_In. split; [apply vals_In; eauto|]. apply existsb_eqb_In. exact Hw. }
  destruct (filter _ _); [contradiction|]. cbn [length]. lia.
Qed.

Lemma total_words_pos (D : smap Z (list str)) w : In w (vocabulary D) -> 1 <= total_words D.
Proof.
  intros H. apply vocabulary_In in H as (d & ws & Hd & Hw). unfold total_words.
  assert (Hv : In ws (vals D)) by (apply vals_In; eauto). revert Hv. generalize (vals D). clear -Hw. intros l.
  assert (Hp : forall l : list (list str), 0 <= fold_right Z.add 0 (map Zlen l)).
  { induction l0 as [|x l0 IH]; cbn [map fold_right]; [lia|]. unfold Zlen in *. lia. }
  induction l as [|x l IH]; intros [].
  - subst. cbn [map fold_right]. pose proof (Hp l). destruct ws; [contradiction|]. unfold Zlen at 1. cbn [length]. lia.
  - cbn [map fold_right]. specialize (IH H). unfold Zlen at 1. lia.
Qed.

Section Posting.
  Context {V : Type}.
  Variable rnd : V -> V.
  Variable fr : list Z -> smap Z V * V.
  Hypothesis freqs_keys : forall wids w, mem w (fst (fr wids)) = true <-> In w wids.
  Variable s : sys V.
  Variable D : smap Z (list str).
  Hypothesis inv : sysinv rnd fr s D.

  Lemma posting_size w : Zsize (posting_of s w) = doc_freq D w.
  Proof.
    unfold doc_freq, Zlen, Zsize, size. f_equal. rewrite <- (map_length fst (elts (posting_of s w))).
    transitivity (length (map fst (filter (fun p => contains (snd p) w) (elts D)))).
    - apply Permutation_length. apply NoDup_Permutation.
      + exact (keys_NoDup (posting_of s w)).
      + pose proof (keys_NoDup D) as Hn. unfold keys in Hn. induction (elts D) as [|p l IH]; [constructor|].
        cbn [map] in Hn. inversion Hn as [|? ? Hp Hl]; subst. cbn [filter]. destruct (contains (snd p) w); [|auto].
        cbn [map]. constructor; [|auto]. intros Hin. apply Hp. apply in_map_iff in Hin as (q & <- & Hq).
        apply filter_In in Hq as [Hq _]. apply in_map. exact Hq.
      + intros d. change (map fst (elts (posting_of s w))) with (keys (posting_of s w)). rewrite keys_mem.
        rewrite (posting_mem rnd fr freqs_keys s D w d inv), in_map_iff. split.
        * intros (ws & Hd & Hw). exists (d, ws). split; [reflexivity|]. apply filter_In. split; [apply get_In; exact Hd|].
          apply existsb_eqb_In. exact Hw.
        * intros ([d' ws] & <- & Hin). apply filter_In in Hin as [Hin Hc]. apply get_In in Hin. exists ws. split; [exact Hin|].
          apply existsb_eqb_In. exact Hc.
    - rewrite map_length. unfold vals. clear. induction (elts D) as [|p l IH]; [reflexivity|]. cbn [map filter].
      destruct (contains (snd p) w); cbn [length]; lia.
  Qed.

  (** a known word id of the index is that of a word of some document *)
  Lemma wid_word i : mem i (wordinfo (six s)) = true -> exists w, In w (vocabulary D) /\ i = get_wid (slx s) w.
  Proof.
    intros H. apply keys_mem in H. apply (Permutation_in _ (wordinfo_keys rnd fr freqs_keys s D inv)) in H.
    apply in_map_iff in H as (w & <- & Hw). eauto.
  Qed.
  Lemma posting_item w : In w (vocabulary D) -> exists p, get (wordinfo (six s)) (get_wid (slx s) w) = Some p /\ p_map p = posting_of s w.
  Proof.
    intros Hw. unfold posting_of. assert (Hm : mem (get_wid (slx s) w) (wordinfo (six s)) = true).
    { apply keys_mem. apply (Permutation_in _ (Permutation_sym (wordinfo_keys rnd fr freqs_keys s D inv))). apply in_map. exact Hw. }
    apply mem_get in Hm as [p Hp]. exists p. rewrite Hp. auto.
  Qed.
  Lemma docweight_size : Zsize (docweight (six s)) = Zsize D.
  Proof.
    unfold Zsize, size. f_equal. rewrite <- (map_length fst (elts (docweight (six s)))), <- (map_length fst (elts D)).
    apply Permutation_length. apply NoDup_Permutation; [apply (keys_NoDup (docweight (six s)))|apply (keys_NoDup D)|].
    intros d. change (In d (keys (docweight (six s))) <-> In d (keys D)). rewrite !keys_mem.
    unfold mem. rewrite (weight_D rnd fr s D d inv). destruct (get D d); reflexivity.
  Qed.
End Posting.

  Lemma idf_ok {F} {AF : Arith F} {SF : SafeArith F} (D : smap Z (list str)) w N : In w (vocabulary D) -> N = Zsize D ->
    inverse_doc_frequency (doc_freq D w) (fofZ N) = Ok (idf D w).
  Proof.
    intros Hw ->. unfold inverse_doc_frequency, py_div, py_log, idf. pose proof (doc_freq_pos D w Hw). pose proof (docs_nonempty D w Hw).
    destruct (safe_idf (doc_freq D w) (Zsize D)) as [E1 E2]; [lia|lia|]. rewrite E1. cbn [bind]. rewrite E2. reflexivity.
  Qed.

Section OkapiSearch.
  Context {F : Type} {AF : Arith F} {SF : SafeArith F}.
  Variables K1 B : F.
  Context {OF : OkapiSafe K1 B}.
  Variable pipeline : list elem.
  Variable s : sys Z.
  Variable D : smap Z (list str).
  Hypothesis inv : sysinv f32Z okapi_fr s D.
  Local Notation lx := (slx s).
  Local Notation ix := (six s).

  Definition oka_mean : F := fdiv (fofZ (totaldoclen ix)) (fofZ (documentCount ix)).
  Definition oka_val (i d f : Z) : F :=
    f32 (fmul (bm25_tf K1 B oka_mean (match get (docweight ix) d with Some l => l | None => 0 end) f)
              (fln (fadd f1 (fdiv (fofZ (documentCount ix)) (fofZ (match get (wordinfo ix) i with Some p => Zsize (p_map p) | None => 0 end)))))).
  Definition oka_map (i : Z) : smap Z F :=
    match get (wordinfo ix) i with Some p => mmap (oka_val i) (p_map p) | None => empty end.

  Lemma posting_value w d ws f : get D d = Some ws -> get (posting_of s w) d = Some f ->
    In w ws /\ 1 <= f /\ (f = occurrences w ws \/ f = f32Z (occurrences w ws)).
  Proof.
    intros Hd Hf. assert (Hw : In w ws).
    { assert (Hm : mem d (posting_of s w) = true) by (apply mem_get; eauto).
      apply (posting_mem f32Z okapi_fr okapi_keys s D w d inv) in Hm as (ws' & E & Hw). congruence. }
    pose proof (posting_val f32Z okapi_fr s D w d ws f inv Hd Hf) as (x & Hx & Hfx).
    pose proof inv as (H1 & H2 & H3). assert (x = occurrences w ws) as ->.
    { unfold weight_in, okapi_fr in Hx. cbn [fst] in Hx. rewrite count_words_get in Hx.
      destruct (existsb _ _); [|discriminate]. injection Hx as <-. apply filter_ids; [exact H1|exact (H2 d ws Hd)]. }
    split; [exact Hw|]. split; [|exact Hfx]. pose proof (occurrences_pos w ws Hw). destruct Hfx as [->| ->]; [lia|].
    apply f32Z_pos. lia.
  Qed.

  Lemma docweight_value d ws : get D d = Some ws -> get (docweight ix) d = Some (f32Z (Zlen ws)).
  Proof. intros Hd. rewrite (weight_D f32Z okapi_fr s D d inv), Hd. cbn [option_map okapi_fr snd]. rewrite ids_len. reflexivity. Qed.
  Lemma len_pos (w : str) ws : In w ws -> 1 <= f32Z (Zlen ws).
  Proof. intros H. apply f32Z_pos. pose proof (occurrences_pos w ws H). pose proof (occurrences_le w ws). lia. Qed.

  Lemma docs_count : documentCount ix = Zsize D.
  Proof. apply (counts_D f32Z okapi_fr okapi_keys s D inv). Qed.

  Hypothesis total_pos : forall w, In w (vocabulary D) -> 1 <= totaldoclen (six s).

  Lemma okapi_tf_ok w len f : In w (vocabulary D) -> 1 <= len -> 1 <= f ->
    okapi_tf K1 B oka_mean len f = Ok (bm25_tf K1 B oka_mean len f).
  Proof.
    intros Hw Hl Hf. unfold okapi_tf, py_div. pose proof (total_pos w Hw). pose proof (docs_nonempty D w Hw) as Hn.
    rewrite <- docs_count in Hn.
    destruct (okapi_mean (totaldoclen ix) (documentCount ix)) as [_ E1]; [lia|lia|]. unfold oka_mean at 1. rewrite E1. cbn [bind].
    unfold oka_mean at 1. rewrite okapi_denominator by lia. reflexivity.
  Qed.

  Lemma py_score_ok w i items m : In w (vocabulary D) ->
    (forall d f, In (d, f) items -> 1 <= f /\ exists len, get (docweight ix) d = Some len /\ 1 <= len) ->
    py_score K1 B m items (docweight ix)
      (fln (fadd f1 (fdiv (fofZ (documentCount ix)) (fofZ (match get (wordinfo ix) i with Some p => Zsize (p_map p) | None => 0 end)))))
      oka_mean = Ok (fold_left (fun m p => put (fst p) (oka_val i (fst p) (snd p)) m) items m).
  Proof.
    intros Hw. revert m. induction items as [|[d f] items IH]; intros m H; [reflexivity|]. cbn [py_score].
    destruct (H d f (or_introl eq_refl)) as (Hf & len & El & Hl). unfold item. rewrite El. cbn [bind].
    rewrite (okapi_tf_ok w len f Hw Hl Hf). cbn [bind]. rewrite IH by (intros d' f' Hin; apply H; right; exact Hin).
    cbn [fold_left fst snd]. unfold oka_val at 3. rewrite El. reflexivity.
  Qed.

  Lemma fold_put_mmap {A W} (g : Z -> A -> W) (m : smap Z A) :
    fold_left (fun r p => put (fst p) (g (fst p) (snd p)) r) (elts m) empty = mmap g m.
  Proof.
    rewrite <- (of_list_elts (map (fun p => (fst p, g (fst p) (snd p))) (elts m)) (mmap g m)) by reflexivity.
    unfold of_list. generalize (empty : smap Z W). induction (elts m) as [|x l IH]; intros r; [reflexivity|]. cbn [map fold_left]. apply IH.
  Qed.

  Lemma py_search_wid_ok i : mem i (wordinfo ix) = true ->
    py_search_wid K1 B ix oka_mean i = Ok (oka_map i, f1).
  Proof.
    intros Hi. destruct (wid_word f32Z okapi_fr okapi_keys s D inv i Hi) as (w & Hw & ->).
    destruct (posting_item f32Z okapi_fr okapi_keys s D inv w Hw) as (p & Ep & Hp).
    unfold py_search_wid, item. rewrite Ep. cbn [bind].
    assert (Hs : Zsize (p_map p) = doc_freq D w) by (rewrite Hp; apply (posting_size f32Z okapi_fr okapi_keys s D inv)).
    rewrite Hs, (idf_ok D w (documentCount ix) Hw docs_count). cbn [bind].
    pose proof (py_score_ok w (get_wid lx w) (elts (p_map p)) empty Hw) as HP. rewrite Ep, Hs in HP.
    replace (idf D w) with (fln (fadd f1 (fdiv (fofZ (documentCount ix)) (fofZ (doc_freq D w)))) : F)
      by (unfold idf; rewrite docs_count; reflexivity).
    rewrite HP.
    - cbn [bind]. rewrite fold_put_mmap. unfold oka_map. rewrite Ep. reflexivity.
    - intros d f Hin. apply get_In in Hin. rewrite Hp in Hin.
      assert (Hm : mem d (posting_of s w) = true) by (apply mem_get; eauto).
      apply (posting_mem f32Z okapi_fr okapi_keys s D w d inv) in Hm as (ws & Ed & Hww).
      destruct (posting_value w d ws f Ed Hin) as (_ & Hf & _). split; [exact Hf|].
      exists (f32Z (Zlen ws)). split; [exact (docweight_value d ws Ed)|exact (len_pos w ws Hww)].
  Qed.

  Lemma oka_wids_ok wids : (forall i, In i wids -> mem i (wordinfo ix) = true) ->
    python_search_wids K1 B ix wids = Ok (map (fun i => (oka_map i, f1)) wids).
  Proof.
    intros H. unfold python_search_wids. destruct wids as [|i0 wids]; [reflexivity|].
    destruct (wid_word f32Z okapi_fr okapi_keys s D inv i0 (H i0 (or_introl eq_refl))) as (w & Hw & _).
    unfold mean_doc_len, py_div. destruct (okapi_mean (totaldoclen ix) (documentCount ix)) as [E _].
    { exact (total_pos w Hw). } { rewrite docs_count. exact (docs_nonempty D w Hw). }
    rewrite E. cbn [bind]. fold oka_mean. apply mapM_ok_map. intros i Hi. apply py_search_wid_ok. auto.
  Qed.

  Lemma oka_keys w d : In w (vocabulary D) ->
    (mem d (oka_map (get_wid lx w)) = true <-> exists ws, get D d = Some ws /\ In w ws).
  Proof.
    intros Hw. destruct (posting_item f32Z okapi_fr okapi_keys s D inv w Hw) as (p & Ep & Hp).
    unfold oka_map. rewrite Ep, Hp. rewrite <- (posting_mem f32Z okapi_fr okapi_keys s D w d inv).
    unfold mem. rewrite get_mmap. destruct (get (posting_of s w) d); reflexivity.
  Qed.

  Context {XF : ExactArith F}.
  Hypothesis docs_small : forall d ws, get D d = Some ws -> Zlen ws <= 2 ^ 24.

  Lemma oka_score_val w d ws : get D d = Some ws -> In w ws ->
    exists v, get (oka_map (get_wid lx w)) d = Some v /\ fmul v f1 = bm25 K1 B D (totaldoclen ix) w ws.
  Proof.
    intros Hd Hw. assert (Hv : In w (vocabulary D)) by (apply vocabulary_In; eauto).
    destruct (posting_item f32Z okapi_fr okapi_keys s D inv w Hv) as (p & Ep & Hp).
    assert (Hm : mem d (posting_of s w) = true).
    { apply (posting_mem f32Z okapi_fr okapi_keys s D w d inv). eauto. }
    apply mem_get in Hm as [f Hf]. destruct (posting_value w d ws f Hd Hf) as (_ & _ & Ho).
    pose proof (docs_small d ws Hd) as Hsm. pose proof (occurrences_le w ws). pose proof (occurrences_pos w ws Hw).
    unfold oka_map. rewrite Ep, get_mmap, Hp, Hf. eexists. split; [reflexivity|].
    rewrite fmul_1_r. unfold oka_val. rewrite f32_exact, Ep, Hp, (docweight_value d ws Hd).
    rewrite (posting_size f32Z okapi_fr okapi_keys s D inv w), docs_count. unfold bm25, idf, oka_mean. rewrite docs_count.
    rewrite (f32Z_small (Zlen ws)) by (unfold Zlen in *; lia).
    replace f with (occurrences w ws); [reflexivity|]. destruct Ho as [->| ->]; [reflexivity|].
    symmetry. apply f32Z_small. lia.
  Qed.
End OkapiSearch.

(** ** The C version *)
Lemma c_score_py {F} `{AF : Arith F} (K1 B : F) items : forall m d2len idf mean r,
  py_score K1 B m items d2len idf mean = Ok r -> c_score K1 B m items d2len idf mean = Ok r.
Proof.
  induction items as [|[d f] items IH]; intros m d2len idf mean r; cbn [py_score c_score]; [auto|].
  intros H. apply bind_ok in H as (len & -> & H). cbn [bind]. apply bind_ok in H as (tf & E & H).
  unfold okapi_tf in E. apply bind_ok in E as (q & Eq & E). unfold py_div in Eq, E.
  destruct (feqb mean f0); [discriminate|]. injection Eq as <-.
  match type of E with (if ?b then _ else _) = _ => destruct b; [discriminate|] end. injection E as <-.
  apply IH. exact H.
Qed.
Lemma c_wids_py {F} `{AF : Arith F} (K1 B : F) ix wids r :
  python_search_wids K1 B ix wids = Ok r -> c_search_wids K1 B ix wids = Ok r.
Proof.
  unfold python_search_wids, c_search_wids. destruct wids as [|i wids]; [auto|]. intros H.
  apply bind_ok in H as (mean & -> & H). cbn [bind]. revert H. generalize (i :: wids). clear. intros l. revert r.
  induction l as [|i l IH]; intros r; cbn [mapM]; [auto|]. intros H.
  apply bind_ok in H as (x & Ex & H). apply bind_ok in H as (y & Ey & H).
  assert (Ec : c_search_wid K1 B ix mean i = Ok x).
  { unfold py_search_wid in Ex. unfold c_search_wid. apply bind_ok in Ex as (p & -> & Ex). cbn [bind].
    apply bind_ok in Ex as (idf & -> & Ex). cbn [bind]. apply bind_ok in Ex as (m & Em & Ex).
    rewrite (c_score_py K1 B _ _ _ _ _ _ Em). exact Ex. }
  rewrite Ec. cbn [bind]. rewrite (IH _ Ey). exact H.
Qed.

(** A search that succeeds does not change when the scoring succeeds more often. *)
Section Refine.
  Context {V F : Type} {AF : Arith F}.
  Variable pipeline : list elem.
  Variables sw1 sw2 : bindex V -> list Z -> res (list (smap Z F * F)).
  Hypothesis Hsw : forall ix wids r, sw1 ix wids = Ok r -> sw2 ix wids = Ok r.

  Lemma refine_search s t r : search pipeline sw1 s t = Ok r -> search pipeline sw2 s t = Ok r.
  Proof.
    unfold search. destruct (termToWordIds pipeline t (slx s)) as [|i l]; [auto|].
    destruct (sw1 (six s) (remove_oov (six s) (i :: l))) eqn:E; [|discriminate].
    rewrite (Hsw _ _ _ E). auto.
  Qed.
  Lemma refine_glob s p r : search_glob sw1 s p = Ok r -> search_glob sw2 s p = Ok r.
  Proof.
    unfold search_glob. destruct (globToWordIds p (slx s)) as [wids|]; [|discriminate]. cbn [bind].
    destruct (sw1 (six s) (remove_oov (six s) wids)) eqn:E; [|discriminate].
    rewrite (Hsw _ _ _ E). auto.
  Qed.
  Lemma refine_phrase s t r : search_phrase pipeline sw1 s t = Ok r -> search_phrase pipeline sw2 s t = Ok r.
  Proof.
    unfold search_phrase. destruct (negb _); [auto|].
    destruct (sw1 (six s) (termToWordIds pipeline t (slx s))) eqn:E; [|discriminate].
    rewrite (Hsw _ _ _ E). auto.
  Qed.
End Refine.
Lemma c_searches {F} {AF : Arith F} (K1 B : F) pipeline s :
  (forall t r, search pipeline (python_search_wids K1 B) s t = Ok r -> search pipeline (c_search_wids K1 B) s t = Ok r) /\
  (forall t r, search_phrase pipeline (python_search_wids K1 B) s t = Ok r -> search_phrase pipeline (c_search_wids K1 B) s t = Ok r) /\
  (forall p r, search_glob (python_search_wids K1 B) s p = Ok r -> search_glob (c_search_wids K1 B) s p = Ok r).
Proof.
  splits.
  - apply refine_search, c_wids_py.
  - apply refine_phrase, c_wids_py.
  - apply refine_glob, c_wids_py.
Qed.
