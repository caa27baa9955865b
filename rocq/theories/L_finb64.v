(** * Every score that a query returns is a finite positive number *)
From Coq Require Import Reals Lra.
From Flocq Require Import Core.Core IEEE754.BinarySingleNaN.
From Verif Require Import L_lexicon L_setops L_baseindex L_textsys L_okapi L_cosine L_search L_okasearch L_cossearch L_textapi L_costext L_weight
  M_okapi M_cosine S_score S_text S_textapi S_textindex M_textindex L_textindex S_parser S_setops S_finite L_bound L_finscore
  IEEE L_ieee L_interval L_finite Arith SMap Ord.

Local Notation two_to := (bpow radix2).

Lemma positive_not_zero a b (x : b64) : within (two_to a) (two_to b) x -> Beqb x (B754_zero false) = false.
Proof.
  intros [Fx Gx]. rewrite Beqb_correct by (exact Fx || reflexivity). pose proof (bpow_gt_0 radix2 a). apply Req_bool_false. cbn [B2R]. lra.
Qed.

Section Final.
  Variable lnf : b64 -> b64.
  Hypothesis Hsane : sane_ln lnf.
  Hypothesis Hln : rough_ln lnf.
  Local Instance AFs : Arith b64 := Arith_b64 lnf.
  Local Instance SFs : SafeArith b64 := safe_b64 lnf Hsane.
  Local Instance QFs : SoundEq b64 := sound_b64 lnf.
  Local Instance OFs : OkapiSafe K1_b64 B_b64.
  Proof. apply okapi_b64_leb; vm_compute; reflexivity. Qed.
  Variable pipeline : list elem.
  Variable h : list top.
  Hypothesis H : history_ok pipeline h.
  Hypothesis Hs : texts_small pipeline h.
  Hypothesis HN : (Zsize (docs_of pipeline h) <= 2 ^ 64)%Z.
  Local Notation D := (docs_of pipeline h).
  Local Notation P := (P).

  Lemma okapi_wids wids : (forall i, In i wids -> mem i (wordinfo (six (okapi_state pipeline h))) = true) -> exists L,
    python_search_wids K1_b64 B_b64 (six (okapi_state pipeline h)) wids = Ok L /\ length L = length wids /\ Forall (good P 1) L.
  Proof.
    intros Hw. destruct (okapi_state_ok pipeline h H) as (_ & _ & Hi & _). pose proof (okapi_total_pos pipeline h H Hs) as Ht.
    eexists. split; [exact (oka_wids_ok K1_b64 B_b64 _ _ Hi Ht wids Hw)|]. split; [apply map_length|].
    apply Forall_forall. intros x Hx. apply in_map_iff in Hx as (i & <- & Hx). specialize (Hw i Hx).
    destruct (wid_word f32Z okapi_fr okapi_keys _ _ Hi i Hw) as (w & Hv & ->).
    destruct (posting_item f32Z okapi_fr okapi_keys _ _ Hi w Hv) as (p & Ep & Hp).
    apply bounded_good; [apply P_one|lia|]. intros d v Hd. unfold oka_map in Hd. rewrite Ep, get_mmap, Hp in Hd.
    destruct (get (posting_of (okapi_state pipeline h) w) d) as [f|] eqn:Ef; [|discriminate]. cbn [option_map] in Hd.
    assert (Ev : oka_val K1_b64 B_b64 (okapi_state pipeline h) (get_wid (slx (okapi_state pipeline h)) w) d f = v) by congruence. subst v. clear Hd.
    assert (Hm : mem d (posting_of (okapi_state pipeline h) w) = true) by (apply mem_get; eauto).
    apply (posting_mem f32Z okapi_fr okapi_keys _ _ w d Hi) in Hm as (ws & Ed & _).
    destruct (posting_value _ _ Hi w d ws f Ed Ef) as (Hin & Hf1 & Hf2).
    pose proof (docs_small_ok pipeline h Hs d ws Ed) as Hsm. pose proof (occurrences_le w ws). pose proof (occurrences_pos w ws Hin).
    assert (Hf3 : (f <= 2 ^ 24)%Z) by (destruct Hf2 as [->| ->]; [lia|]; rewrite f32Z_small by lia; lia).
    unfold oka_val. rewrite (docweight_value _ _ Hi d ws Ed), Ep, Hp, (posting_size f32Z okapi_fr okapi_keys _ _ Hi w), (docs_count _ _ Hi).
    rewrite (f32Z_small (Zlen ws)) by lia. unfold oka_mean. rewrite (docs_count _ _ Hi).
    pose proof (docs_nonempty D w Hv) as Hne.
    assert (T1 := tf_in lnf (totaldoclen (six (okapi_state pipeline h))) (Zsize D) (Zlen ws) f (Ht w Hv) (conj Hne HN) ltac:(lia) ltac:(lia)).
    assert (T2 := idf_word_in lnf Hln D w Hv HN). apply P_f32. apply (P_single (-93) 10); [lia|lia|].
    exact (mul_pows lnf _ _ _ _ _ _ T1 T2 ltac:(lia) ltac:(lia)).
  Qed.
  Lemma cosine_wids wids : (forall i, In i wids -> mem i (wordinfo (six (cos_state (F := b64) pipeline h))) = true) -> exists L,
    cos_search_wids (six (cos_state (F := b64) pipeline h)) wids = Ok L /\ length L = length wids /\ Forall (good P 1) L.
  Proof.
    intros Hw. destruct (cos_state_ok pipeline h H) as (_ & _ & Hi).
    eexists. split; [exact (cos_wids_ok _ _ Hi wids Hw)|]. split; [apply map_length|].
    apply Forall_forall. intros x Hx. apply in_map_iff in Hx as (i & <- & Hx). specialize (Hw i Hx).
    destruct (wid_word f32 cos_fr cos_keys _ _ Hi i Hw) as (w & Hv & ->).
    split; [lia|]. cbn [fst snd]. intros d v Hd.
    assert (Hm : mem d (cos_map (cos_state (F := b64) pipeline h) (get_wid (slx (cos_state (F := b64) pipeline h)) w)) = true) by (apply mem_get; eauto).
    apply (cos_keys' _ _ Hi w d Hv) in Hm as (ws & Ed & Hin). rewrite (cos_map_val _ _ Hi w d ws Ed Hin) in Hd.
    assert (Ev : f32 (cosine_weight w ws) = v) by congruence. subst v. clear Hd.
    pose proof (docs_small_ok pipeline h Hs d ws Ed) as Hsm. assert (T1 := cosine_weight_in lnf Hln w ws Hin Hsm).
    rewrite (cos_idf_word _ _ Hi w Hv). assert (T2 := idf_word_in lnf Hln D w Hv HN). split; [|intros _; apply (P_single (-18) 6); [lia|lia|exact T1]].
    unfold scaled. apply P_f32. apply (P_single (-20) 14); [lia|lia|].
    assert (T3 : within (two_to (-2)) (two_to 8) (f32 (idf D w))) by (apply store_in; [exact T2|apply simple_pow; lia|apply simple_pow; lia]).
    exact (mul_pows lnf _ _ _ _ _ _ T1 T3 ltac:(lia) ltac:(lia)).
  Qed.

  Variable space : char -> bool.
  Variable upper : str -> str.
  Variable qpipeline : list elem.
  Local Notation parse := (parseQuery space upper (fun t => parseTerms qpipeline (TxStr t)) isGlob).
  Lemma okapi_finite query start count n ign m d v : parse query = POk (n, ign) -> (query_size pipeline (slx (okapi_state pipeline h)) n <= 2 ^ 24)%Z ->
    apply space upper qpipeline pipeline (python_search_wids K1_b64 B_b64) (okapi_query_weight pipeline K1_b64) (okapi_state pipeline h) query start count = POk (Some m) ->
    get m d = Some v -> within (two_to (-134)) (two_to 42) v.
  Proof.
    intros Hp Hq Ha Hv. pose proof (okapi_weight_exact pipeline K1_b64 h (map term_text (terms n)) H) as Ew.
    pose proof (terms_size pipeline (okapi_state pipeline h) n) as Hl.
    assert (W := okapi_norm_in lnf Hln D (flat_map (text_words pipeline) (map term_text (terms n))) HN ltac:(lia)).
    destruct (apply_values P P_mono (P_f32 lnf) (P_one lnf) (P_add lnf) pipeline (python_search_wids K1_b64 B_b64) (okapi_state pipeline h) okapi_wids
      space upper qpipeline (okapi_query_weight pipeline K1_b64) query start count n ign _ m Hp Ew (positive_not_zero _ _ _ W) Ha d v Hv) as (u & Hu & ->).
    exact (P_final lnf _ u _ Hu Hq W).
  Qed.
  Lemma okapi_c_finite query start count n ign m d v : parse query = POk (n, ign) -> (query_size pipeline (slx (okapi_state pipeline h)) n <= 2 ^ 24)%Z ->
    apply space upper qpipeline pipeline (c_search_wids K1_b64 B_b64) (okapi_query_weight pipeline K1_b64) (okapi_state pipeline h) query start count = POk (Some m) ->
    get m d = Some v -> within (two_to (-134)) (two_to 42) v.
  Proof.
    intros Hp Hq Ha Hv. pose proof (okapi_weight_exact pipeline K1_b64 h (map term_text (terms n)) H) as Ew.
    pose proof (terms_size pipeline (okapi_state pipeline h) n) as Hl.
    assert (W := okapi_norm_in lnf Hln D (flat_map (text_words pipeline) (map term_text (terms n))) HN ltac:(lia)).
    assert (SW : forall wids, (forall i, In i wids -> mem i (wordinfo (six (okapi_state pipeline h))) = true) -> exists L,
      c_search_wids K1_b64 B_b64 (six (okapi_state pipeline h)) wids = Ok L /\ length L = length wids /\ Forall (good P 1) L).
    { intros wids Hw. destruct (okapi_wids wids Hw) as (L & E & G). exists L. split; [apply c_wids_py, E|exact G]. }
    destruct (apply_values P P_mono (P_f32 lnf) (P_one lnf) (P_add lnf) pipeline (c_search_wids K1_b64 B_b64) (okapi_state pipeline h) SW
      space upper qpipeline (okapi_query_weight pipeline K1_b64) query start count n ign _ m Hp Ew (positive_not_zero _ _ _ W) Ha d v Hv) as (u & Hu & ->).
    exact (P_final lnf _ u _ Hu Hq W).
  Qed.
  Lemma cosine_finite query start count n ign m d v : parse query = POk (n, ign) -> (query_size pipeline (slx (cos_state (F := b64) pipeline h)) n <= 2 ^ 24)%Z ->
    apply space upper qpipeline pipeline cos_search_wids (cos_query_weight pipeline) (cos_state (F := b64) pipeline h) query start count = POk (Some m) ->
    get m d = Some v -> within (two_to (-134)) (two_to 42) v.
  Proof.
    intros Hp Hq Ha Hv. pose proof (cos_weight_exact pipeline h (map term_text (terms n)) H) as Ew.
    pose proof (terms_size pipeline (cos_state (F := b64) pipeline h) n) as Hl.
    assert (W := cos_norm_in lnf Hln D (flat_map (text_words pipeline) (map term_text (terms n))) HN ltac:(lia)).
    destruct (apply_values P P_mono (P_f32 lnf) (P_one lnf) (P_add lnf) pipeline cos_search_wids (cos_state (F := b64) pipeline h) cosine_wids
      space upper qpipeline (cos_query_weight pipeline) query start count n ign _ m Hp Ew (positive_not_zero _ _ _ W) Ha d v Hv) as (u & Hu & ->).
    exact (P_final lnf _ u _ Hu Hq W).
  Qed.
End Final.

Lemma within_fine v : within (two_to (-134)) (two_to 42) v -> is_finite v = true /\ (0 < B2R v)%R /\ (two_to (-134) <= B2R v <= two_to 42)%R.
Proof. intros [F1 G1]. pose proof (bpow_gt_0 radix2 (-134)). split; [exact F1|]. split; [lra|exact G1]. Qed.
