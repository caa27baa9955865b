(** * Lemmas for the theorems about text indexes *)
From Verif Require Import L_widcode L_lexicon L_setops L_baseindex L_textsys L_okapi L_cosine L_search L_okasearch L_cossearch
  S_setops S_score S_text S_textapi M_cosine Ord.

Lemma mapM_ext {A B} (f g : A -> res B) l : (forall x, f x = g x) -> mapM f l = mapM g l.
Proof. intros H. induction l as [|x l IH]; [reflexivity|]. cbn [mapM]. rewrite H, IH. reflexivity. Qed.

(** ** Indexes that only differ in how the postings are stored *)
Section Like.
  Context {V : Type}.
  Definition like (a b : bindex V) : Prop :=
    (forall i, option_map p_map (get (wordinfo a) i) = option_map p_map (get (wordinfo b) i)) /\
    docweight a = docweight b /\ docwords a = docwords b /\
    wordCount a = wordCount b /\ documentCount a = documentCount b.

  Variable rnd : V -> V.
  Variable fr : list Z -> smap Z V * V.
  Hypothesis freqs_keys : forall wids w, mem w (fst (fr wids)) = true <-> In w wids.

  Lemma determined a b D : sysinv rnd fr a D -> sysinv rnd fr b D -> slx a = slx b ->
    (forall d ws w x, get D d = Some ws -> weight_in fr (slx a) ws w = Some x -> rnd x = x) ->
    like (six a) (six b).
  Proof.
    intros Ha Hb Hl Hx. pose proof (counts_D rnd fr freqs_keys a D Ha) as [A1 A2].
    pose proof (counts_D rnd fr freqs_keys b D Hb) as [B1 B2].
    assert (Hp : forall w, posting_of a w = posting_of b w).
    { intros w. apply smap_ext. intros d.
      destruct (posting_D rnd fr a D w d Ha) as (p & Hp & ->). destruct (posting_D rnd fr b D w d Hb) as (p' & Hp' & ->).
      destruct (get D d) as [ws|] eqn:Ed; [|reflexivity]. rewrite <- Hl.
      destruct (weight_in fr (slx a) ws w) as [x|] eqn:Ew; [|reflexivity]. cbn [option_map]. f_equal.
      pose proof (Hx d ws w x Ed Ew) as Er. transitivity x.
      - destruct (Hp x) as [->| ->]; auto.
      - destruct (Hp' x) as [->| ->]; auto. }
    split; [|splits].
    - assert (Hhalf : forall s1 s2, sysinv rnd fr s1 D -> sysinv rnd fr s2 D -> slx s1 = slx s2 ->
        (forall w, posting_of s1 w = posting_of s2 w) -> forall i p, get (wordinfo (six s1)) i = Some p ->
        exists p', get (wordinfo (six s2)) i = Some p' /\ p_map p' = p_map p).
      { intros s1 s2 H1 H2 Hs Hpo i p Hi. assert (Hm : mem i (wordinfo (six s1)) = true) by (apply mem_get; eauto).
        destruct (wid_word rnd fr freqs_keys s1 D H1 i Hm) as (w & Hw & ->).
        destruct (posting_item rnd fr freqs_keys s1 D H1 w Hw) as (q1 & E1 & P1).
        destruct (posting_item rnd fr freqs_keys s2 D H2 w Hw) as (q2 & E2 & P2).
        rewrite Hs. exists q2. split; [exact E2|]. rewrite P2, <- Hpo, <- P1. congruence. }
      intros i. destruct (get (wordinfo (six a)) i) as [p|] eqn:E.
      + destruct (Hhalf a b Ha Hb Hl Hp i p E) as (p' & -> & Hpp). cbn. congruence.
      + destruct (get (wordinfo (six b)) i) as [p'|] eqn:E'; [exfalso|reflexivity].
        destruct (Hhalf b a Hb Ha (eq_sym Hl) (fun w => eq_sym (Hp w)) i p' E') as (p & E2 & _). congruence.
    - apply smap_ext. intros d. rewrite (weight_D rnd fr a D d Ha), (weight_D rnd fr b D d Hb), Hl. reflexivity.
    - apply smap_ext. intros d. pose proof Ha as (_ & _ & I1). pose proof Hb as (_ & _ & I2).
      rewrite (iv_words _ _ _ _ I1), (iv_words _ _ _ _ I2), Hl. reflexivity.
    - congruence.
    - congruence.
  Qed.

  Lemma like_view a b : slx a = slx b -> like (six a) (six b) -> same_docs_view a b.
  Proof.
    intros Hl (H1 & H2 & H3 & H4 & H5). unfold same_docs_view. splits; try assumption.
    - intros d. unfold has_doc. rewrite H3. reflexivity.
    - intros d. unfold get_words. rewrite H3. reflexivity.
  Qed.

  Lemma like_oov a b wids : like a b -> remove_oov a wids = remove_oov b wids.
  Proof.
    intros (H & _). apply filter_ext. intros i. specialize (H i). unfold mem.
    destruct (get (wordinfo a) i), (get (wordinfo b) i); cbn in *; congruence.
  Qed.

  Section LikeSearch.
    Context {F : Type} {AF : Arith F}.
    Variable pipeline : list elem.
    Variable sw : bindex V -> list Z -> res (list (smap Z F * F)).
    Variables a b : sys V.
    Hypothesis same_lx : slx a = slx b.
    Hypothesis lk : like (six a) (six b).
    Hypothesis same_sw : forall wids, sw (six a) wids = sw (six b) wids.

    Lemma like_search t : search pipeline sw a t = search pipeline sw b t.
    Proof.
      unfold search. rewrite same_lx. destruct (termToWordIds _ _ _); [reflexivity|].
      rewrite (like_oov _ _ _ lk), same_sw. reflexivity.
    Qed.
    Lemma like_glob p : search_glob sw a p = search_glob sw b p.
    Proof.
      unfold search_glob. rewrite same_lx. destruct (globToWordIds p (slx b)); [|reflexivity]. cbn [bind].
      rewrite (like_oov _ _ _ lk), same_sw. reflexivity.
    Qed.
    Lemma like_phrase t : search_phrase pipeline sw a t = search_phrase pipeline sw b t.
    Proof.
      unfold search_phrase. rewrite same_lx, (like_oov _ _ _ lk), same_sw. destruct lk as (_ & _ & H & _).
      assert (Hp : forall code hits m, phrase_loop (six a) code hits m = phrase_loop (six b) code hits m).
      { intros code hits. induction hits as [|[d v] hits IH]; intros m; [reflexivity|]. cbn [phrase_loop]. rewrite H.
        destruct (item (docwords (six b)) d); [|reflexivity]. cbn [bind]. apply IH. }
      destruct (negb _); [reflexivity|]. destruct (sw (six b) _); [|reflexivity]. cbn [bind].
      destruct (mass_weightedIntersection _) as [hits|]; [|reflexivity]. cbn [bind]. destruct (is_empty hits); [reflexivity|].
      destruct (encode _); [|reflexivity]. cbn [bind]. apply Hp.
    Qed.
  End LikeSearch.
End Like.

Lemma like_okapi {F} {AF : Arith F} (K1 B : F) a b wids : like a b -> totaldoclen a = totaldoclen b ->
  python_search_wids K1 B a wids = python_search_wids K1 B b wids.
Proof.
  intros (H1 & H2 & H3 & H4 & H5) Ht. unfold python_search_wids, mean_doc_len. rewrite Ht, H5.
  destruct wids as [|i wids]; [reflexivity|]. destruct (py_div _ _) as [mean|]; [|reflexivity]. cbn [bind].
  apply mapM_ext. intros j. unfold py_search_wid, item. rewrite H5, H2. specialize (H1 j).
  destruct (get (wordinfo a) j) as [p|], (get (wordinfo b) j) as [q|]; cbn [option_map] in H1; try discriminate; [|reflexivity].
  injection H1 as H1. cbn [bind]. rewrite H1. reflexivity.
Qed.
Lemma like_weight {F} {AF : Arith F} pipeline (K1 : F) a b ts : slx a = slx b -> like (six a) (six b) ->
  okapi_query_weight pipeline K1 a ts = okapi_query_weight pipeline K1 b ts.
Proof.
  intros Hl Hk. unfold okapi_query_weight. rewrite Hl, (like_oov _ _ _ Hk). destruct Hk as (H1 & H2 & _). rewrite H2.
  generalize (remove_oov (six b) (flat_map (fun term => termToWordIds pipeline term (slx b)) ts)). intros l. generalize (Ok f0 : res F).
  induction l as [|i l IH]; intros r; [reflexivity|]. cbn [fold_left]. rewrite <- IH. f_equal. destruct r; [|reflexivity]. cbn [bind].
  specialize (H1 i). unfold item.
  destruct (get (wordinfo (six a)) i) as [p|], (get (wordinfo (six b)) i) as [q|]; cbn [option_map] in H1; try discriminate; [|reflexivity].
  injection H1 as H1. cbn [bind]. rewrite H1. reflexivity.
Qed.
Lemma like_same pipeline a b : slx a = slx b -> like (six a) (six b) -> totaldoclen (six a) = totaldoclen (six b) ->
  okapi_same pipeline a b.
Proof.
  intros Hl Hk Ht. split; [exact (like_view a b Hl Hk)|]. intros F AF K1 B.
  assert (Hs : forall wids, python_search_wids K1 B (six a) wids = python_search_wids K1 B (six b) wids)
    by (intros; apply like_okapi; assumption).
  splits; intros; [apply like_search|apply like_phrase|apply like_glob|apply like_weight]; assumption.
Qed.

(** ** The Okapi index after a history *)
Section OkapiHist.
  Variable pipeline : list elem.
  Local Notation words t := (text_words pipeline t).
  Local Notation docs h := (docs_of pipeline h).
  Local Notation st h := (okapi_state pipeline h).
  Local Notation okinv := (sysinv f32Z okapi_fr).

  Lemma okapi_state_ok h : history_ok pipeline h ->
    snd (okapi_run pipeline h) = Ok tt /\ slx (st h) = lex_run pipeline (lex_hist h) /\ okinv (st h) (docs h) /\
    totaldoclen (six (st h)) = okapi_total pipeline h.
  Proof. intros H. destruct (okapi_run_ok pipeline h H) as (s & E & H'). unfold okapi_state. rewrite E. auto. Qed.

  Lemma no_clear_cleared h : no_clear h -> words_cleared pipeline h = 0.
  Proof.
    intros H. unfold words_cleared. assert (G : forall h D n, ~ In TClear h -> snd (fold_left (fun Dn o => (docs_step pipeline (fst Dn) o,
      match o with TClear => snd Dn + total_words (fst Dn) | _ => snd Dn end)) h (D, n)) = n).
    { clear. induction h as [|o h IH]; intros D n H; [reflexivity|]. cbn [fold_left fst snd].
      destruct o; try (apply IH; intros Hin; apply H; right; exact Hin). exfalso. apply H. left. reflexivity. }
    apply G. exact H.
  Qed.

  Lemma docs_small_ok h : texts_small pipeline h -> forall d ws, get (docs h) d = Some ws -> Zlen ws <= 2 ^ 24.
  Proof.
    intros Hsm. unfold docs_of. assert (G : forall h D, texts_small pipeline h -> (forall d ws, get D d = Some ws -> Zlen ws <= 2 ^ 24) ->
      forall d ws, get (fold_left (docs_step pipeline) h D) d = Some ws -> Zlen ws <= 2 ^ 24).
    { clear. induction h as [|o h IH]; intros D Hsm HD; [exact HD|]. cbn [fold_left]. apply IH.
      - intros d t Hin. apply (Hsm d t). right. exact Hin.
      - destruct o as [d t|d| |lo]; cbn [docs_step]; try exact HD.
        + intros d' ws. rewrite get_put. destruct (eqb d' d); [|apply HD]. intros [= <-]. apply (Hsm d t). left. reflexivity.
        + intros d' ws. rewrite get_del. destruct (eqb d' d); [discriminate|apply HD].
        + intros d' ws. rewrite get_empty. discriminate. }
    apply G; [exact Hsm|]. intros d ws. rewrite get_empty. discriminate.
  Qed.

  Lemma words_cleared_nonneg h : 0 <= words_cleared pipeline h.
  Proof.
    unfold words_cleared. assert (Ht : forall D, 0 <= total_words D).
    { intros D. unfold total_words. induction (vals D) as [|x l IH]; cbn [map fold_right]; [lia|]. unfold Zlen at 1. lia. }
    assert (G : forall h D n, 0 <= n -> 0 <= snd (fold_left (fun Dn o => (docs_step pipeline (fst Dn) o,
      match o with TClear => snd Dn + total_words (fst Dn) | _ => snd Dn end)) h (D, n))).
    { clear h. induction h as [|o h IH]; intros D n H; [exact H|]. cbn [fold_left fst snd]. apply IH.
      destruct o; try exact H. pose proof (Ht D). lia. }
    apply G. lia.
  Qed.

  (** *** C50 *)
  Lemma okapi_consistent h : history_ok pipeline h ->
    slx (st h) = lex_run pipeline (lex_hist h) /\
    (forall d, has_doc (six (st h)) d = mem d (docs h)) /\
    (forall d, get_words (six (st h)) d =
       match get (docs h) d with Some ws => Ok (map (get_wid (slx (st h))) ws) | None => Raise KeyError end) /\
    (forall d ws, get (docs h) d = Some ws -> mapM (get_word (slx (st h))) (map (get_wid (slx (st h))) ws) = Ok ws) /\
    (forall w d, mem d (posting_of (st h) w) = true <-> exists ws, get (docs h) d = Some ws /\ In w ws) /\
    (forall w d ws n, get (docs h) d = Some ws -> get (posting_of (st h) w) d = Some n ->
       n = occurrences w ws \/ n = f32Z (occurrences w ws)) /\
    (forall d, get (docweight (six (st h))) d = option_map (fun ws => f32Z (Zlen ws)) (get (docs h) d)) /\
    (forall i p, get (wordinfo (six (st h))) i = Some p ->
       exists w, In w (vocabulary (docs h)) /\ i = get_wid (slx (st h)) w /\ p_map p = posting_of (st h) w).
  Proof.
    intros H. destruct (okapi_state_ok h H) as (_ & E2 & Hi & _). splits.
    - exact E2.
    - intros d. exact (has_doc_D _ _ _ _ _ Hi).
    - intros d. exact (get_words_D _ _ _ _ _ Hi).
    - intros d ws Hd. exact (words_back _ _ _ _ _ _ Hi Hd).
    - intros w d. exact (posting_mem _ _ okapi_keys _ _ _ _ Hi).
    - intros w d ws n Hd Hn. destruct (posting_value _ _ Hi w d ws n Hd Hn) as (_ & _ & Hx). exact Hx.
    - intros d. rewrite (weight_D _ _ _ _ _ Hi). destruct (get (docs h) d) as [ws|]; [|reflexivity].
      cbn [option_map okapi_fr snd]. rewrite ids_len. reflexivity.
    - intros i p Hp. assert (Hm : mem i (wordinfo (six (st h))) = true) by (apply mem_get; eauto).
      destruct (wid_word _ _ okapi_keys _ _ Hi i Hm) as (w & Hw & ->). exists w. splits; auto.
      destruct (posting_item _ _ okapi_keys _ _ Hi w Hw) as (q & Eq & Hq). congruence.
  Qed.

  Lemma okapi_counts h : history_ok pipeline h ->
    documentCount (six (st h)) = Zsize (docs h) /\ wordCount (six (st h)) = Zlen (vocabulary (docs h)).
  Proof. intros H. destruct (okapi_state_ok h H) as (_ & _ & Hi & _). exact (counts_D _ _ okapi_keys _ _ Hi). Qed.

  Lemma okapi_no_raise h : history_ok pipeline h -> snd (okapi_run pipeline h) = Ok tt.
  Proof. intros H. apply (okapi_state_ok h H). Qed.

  (** *** C53, C54 *)
  Lemma okapi_total_ok h : history_ok pipeline h -> texts_small pipeline h ->
    totaldoclen (six (st h)) = total_words (docs h) + words_cleared pipeline h.
  Proof. intros H Hs. rewrite <- (okapi_total_small pipeline h Hs). apply (okapi_state_ok h H). Qed.
  Lemma okapi_total_no_clear h : history_ok pipeline h -> texts_small pipeline h -> no_clear h ->
    totaldoclen (six (st h)) = total_words (docs h).
  Proof. intros H Hs Hn. rewrite (okapi_total_ok h H Hs), (no_clear_cleared h Hn). lia. Qed.

  (** *** C52: the index is determined by its documents and its lexicon *)
  Lemma okapi_determined h1 h2 : history_ok pipeline h1 -> history_ok pipeline h2 -> texts_small pipeline h1 ->
    docs h1 = docs h2 -> lex_run pipeline (lex_hist h1) = lex_run pipeline (lex_hist h2) ->
    slx (st h1) = slx (st h2) /\ like (six (st h1)) (six (st h2)).
  Proof.
    intros H1 H2 Hs Hd Hl. destruct (okapi_state_ok h1 H1) as (_ & L1 & I1 & T1). destruct (okapi_state_ok h2 H2) as (_ & L2 & I2 & T2).
    assert (Hlx : slx (st h1) = slx (st h2)) by congruence. split; [exact Hlx|].
    apply (determined f32Z okapi_fr okapi_keys _ _ (docs h1)); [exact I1|rewrite Hd; exact I2|exact Hlx|].
    intros d ws w x Ed Hx. apply f32Z_small. pose proof (docs_small_ok h1 Hs d ws Ed) as Hsm.
    pose proof I1 as (B1 & B2 & B3). unfold weight_in, okapi_fr in Hx. cbn [fst] in Hx. rewrite count_words_get in Hx.
    destruct (existsb _ _); [|discriminate]. injection Hx as <-. unfold Zlen in *.
    pose proof (filter_len (eqb (get_wid (slx (st h1)) w)) (ids (slx (st h1)) ws)) as Hf. unfold ids in Hf at 2. rewrite map_length in Hf. lia.
  Qed.

  Lemma okapi_same_docs h1 h2 : history_ok pipeline h1 -> history_ok pipeline h2 ->
    texts_small pipeline h1 -> texts_small pipeline h2 ->
    docs h1 = docs h2 -> lex_run pipeline (lex_hist h1) = lex_run pipeline (lex_hist h2) ->
    words_cleared pipeline h1 = words_cleared pipeline h2 -> okapi_same pipeline (st h1) (st h2).
  Proof.
    intros H1 H2 S1 S2 Hd Hl Hc. destruct (okapi_determined h1 h2 H1 H2 S1 Hd Hl) as [Hlx Hk].
    apply like_same; [exact Hlx|exact Hk|]. rewrite (okapi_total_ok h1 H1 S1), (okapi_total_ok h2 H2 S2). congruence.
  Qed.
  Lemma okapi_same_view h1 h2 : history_ok pipeline h1 -> history_ok pipeline h2 -> texts_small pipeline h1 ->
    docs h1 = docs h2 -> lex_run pipeline (lex_hist h1) = lex_run pipeline (lex_hist h2) -> same_docs_view (st h1) (st h2).
  Proof.
    intros H1 H2 S1 Hd Hl. destruct (okapi_determined h1 h2 H1 H2 S1 Hd Hl) as [Hlx Hk]. exact (like_view _ _ Hlx Hk).
  Qed.
End OkapiHist.

(** ** Shapes of histories *)
Lemma docs_of_app pipeline h1 h2 : docs_of pipeline (h1 ++ h2) = fold_left (docs_step pipeline) h2 (docs_of pipeline h1).
Proof. unfold docs_of. apply fold_left_app. Qed.
Lemma lex_run_app pipeline h1 h2 :
  lex_run pipeline (lex_hist (h1 ++ h2)) = fold_left (lex_step pipeline) (lex_hist h2) (lex_run pipeline (lex_hist h1)).
Proof. unfold lex_hist. rewrite flat_map_app. unfold lex_run. apply fold_left_app. Qed.
Lemma lex_hist_other l : lex_hist (map TOther l) = l.
Proof. induction l as [|o l IH]; [reflexivity|]. cbn [map lex_hist flat_map app]. f_equal. exact IH. Qed.
Lemma docs_other pipeline l D : fold_left (docs_step pipeline) (map TOther l) D = D.
Proof. revert D; induction l as [|o l IH]; intros D; [reflexivity|]. cbn [map fold_left docs_step]. apply IH. Qed.

(** re-indexing vs unindexing and indexing again *)
Lemma lex_hist_reindex h d t : lex_hist (h ++ [TUnindex d; TIndex d t]) = lex_hist (h ++ [TIndex d t]).
Proof. unfold lex_hist. rewrite !flat_map_app. reflexivity. Qed.
Lemma docs_reindex pipeline h d t : docs_of pipeline (h ++ [TUnindex d; TIndex d t]) = docs_of pipeline (h ++ [TIndex d t]).
Proof.
  rewrite !docs_of_app. cbn [fold_left docs_step]. apply smap_ext. intros k. rewrite !get_put, get_del.
  destruct (eqb k d); reflexivity.
Qed.
(** indexing and unindexing vs only extending the lexicon *)
Lemma lex_hist_undo h d t : lex_hist (h ++ [TIndex d t; TUnindex d]) = lex_hist (h ++ [TUnindex d; TOther (LText t)]).
Proof. unfold lex_hist. rewrite !flat_map_app. reflexivity. Qed.
Lemma docs_undo pipeline h d t : docs_of pipeline (h ++ [TIndex d t; TUnindex d]) = docs_of pipeline (h ++ [TUnindex d; TOther (LText t)]).
Proof.
  rewrite !docs_of_app. cbn [fold_left docs_step]. apply smap_ext. intros k. rewrite !get_del, get_put.
  destruct (eqb k d); reflexivity.
Qed.
(** clear vs starting with the same lexicon *)
Lemma lex_hist_clear h h' : lex_hist (h ++ TClear :: h') = lex_hist (map TOther (lex_hist h) ++ h').
Proof. unfold lex_hist at 1 2. rewrite !flat_map_app. cbn [flat_map app]. f_equal. symmetry. apply lex_hist_other. Qed.
Lemma docs_clear pipeline h h' : docs_of pipeline (h ++ TClear :: h') = docs_of pipeline (map TOther (lex_hist h) ++ h').
Proof. rewrite !docs_of_app. cbn [fold_left docs_step]. unfold docs_of at 1. rewrite docs_other. reflexivity. Qed.

Lemma history_ok_lex pipeline h1 h2 : lex_hist h1 = lex_hist h2 -> history_ok pipeline h1 -> history_ok pipeline h2.
Proof. unfold history_ok. intros ->. auto. Qed.

Section OkapiLaws.
  Variable pipeline : list elem.
  Local Notation st h := (okapi_state pipeline h).

  Lemma cleared_app h1 h2 : (forall o, In o h2 -> o <> TClear) -> words_cleared pipeline (h1 ++ h2) = words_cleared pipeline h1.
  Proof.
    intros H. unfold words_cleared. rewrite fold_left_app.
    match goal with |- snd (fold_left ?f h2 ?a) = _ => generalize a end. revert H. induction h2 as [|o h2 IH]; intros H a; [reflexivity|].
    cbn [fold_left]. rewrite IH by (intros o' Ho'; apply H; right; exact Ho'). cbn [snd].
    destruct o; try reflexivity. exfalso. apply (H TClear); [left|]; reflexivity.
  Qed.
  Lemma small_app h1 h2 : texts_small pipeline h1 -> texts_small pipeline h2 -> texts_small pipeline (h1 ++ h2).
  Proof. intros H1 H2 d t Hin. apply in_app_or in Hin as [Hin|Hin]; [exact (H1 d t Hin)|exact (H2 d t Hin)]. Qed.
  Lemma small_app_l h1 h2 : texts_small pipeline (h1 ++ h2) -> texts_small pipeline h1.
  Proof. intros H d t Hin. apply (H d t). apply in_or_app. left. exact Hin. Qed.
  Lemma small_app_r h1 h2 : texts_small pipeline (h1 ++ h2) -> texts_small pipeline h2.
  Proof. intros H d t Hin. apply (H d t). apply in_or_app. right. exact Hin. Qed.

  Lemma okapi_reindex_law h d t : history_ok pipeline (h ++ [TIndex d t]) -> texts_small pipeline (h ++ [TIndex d t]) ->
    okapi_same pipeline (st (h ++ [TIndex d t])) (st (h ++ [TUnindex d; TIndex d t])).
  Proof.
    intros H Hs. assert (Hs' : texts_small pipeline (h ++ [TUnindex d; TIndex d t])).
    { intros d' t' Hin. apply (Hs d' t'). apply in_app_or in Hin as [Hin|[Hin|[Hin|[]]]]; [|discriminate|]; apply in_or_app; [left; exact Hin|].
      right. left. exact Hin. }
    apply okapi_same_docs; try assumption.
    - eapply history_ok_lex; [|exact H]. symmetry. apply lex_hist_reindex.
    - symmetry. apply docs_reindex.
    - rewrite lex_hist_reindex. reflexivity.
    - rewrite !cleared_app; [reflexivity| |]; intros o Ho ->; repeat (destruct Ho as [Ho|Ho]; [discriminate|]); destruct Ho.
  Qed.
  Lemma okapi_unindex_law h d t : history_ok pipeline (h ++ [TIndex d t]) -> texts_small pipeline (h ++ [TIndex d t]) ->
    okapi_same pipeline (st (h ++ [TIndex d t; TUnindex d])) (st (h ++ [TUnindex d; TOther (LText t)])).
  Proof.
    intros H Hs. assert (Hh : texts_small pipeline h) by (eapply small_app_l; exact Hs).
    assert (Hl : lex_hist (h ++ [TIndex d t]) = lex_hist (h ++ [TIndex d t; TUnindex d])).
    { unfold lex_hist. rewrite !flat_map_app. reflexivity. }
    apply okapi_same_docs.
    - exact (history_ok_lex _ _ _ Hl H).
    - eapply history_ok_lex; [|exact H]. rewrite Hl. apply lex_hist_undo.
    - intros d' t' Hin. apply (Hs d' t'). apply in_app_or in Hin as [Hin|[Hin|[Hin|[]]]]; [| |discriminate]; apply in_or_app; [left; exact Hin|].
      right. left. exact Hin.
    - apply small_app; [exact Hh|]. intros d' t' [Hin|[Hin|[]]]; discriminate.
    - apply docs_undo.
    - rewrite lex_hist_undo. reflexivity.
    - rewrite !cleared_app; [reflexivity| |]; intros o Ho ->; repeat (destruct Ho as [Ho|Ho]; [discriminate|]); destruct Ho.
  Qed.
  Lemma okapi_unindex_unknown h d : history_ok pipeline h -> get (docs_of pipeline h) d = None ->
    okapi_unindex_doc d (st h) = (st h, Ok tt).
  Proof.
    intros H Hd. destruct (okapi_state_ok pipeline h H) as (_ & _ & Hi & _). unfold okapi_unindex_doc.
    rewrite (has_doc_D _ _ _ _ _ Hi). replace (mem d (docs_of pipeline h)) with false by (symmetry; apply mem_false; exact Hd). reflexivity.
  Qed.

  Lemma okapi_clear_view h h' : history_ok pipeline (h ++ TClear :: h') -> texts_small pipeline (h ++ TClear :: h') ->
    same_docs_view (st (h ++ TClear :: h')) (st (map TOther (lex_hist h) ++ h')).
  Proof.
    intros H Hs. apply okapi_same_view.
    - exact H.
    - eapply history_ok_lex; [|exact H]. apply lex_hist_clear.
    - exact Hs.
    - apply docs_clear.
    - rewrite lex_hist_clear. reflexivity.
  Qed.
  Lemma okapi_clear_same h h' : history_ok pipeline (h ++ TClear :: h') -> texts_small pipeline (h ++ TClear :: h') ->
    words_cleared pipeline (h ++ [TClear]) = 0 ->
    okapi_same pipeline (st (h ++ TClear :: h')) (st (map TOther (lex_hist h) ++ h')).
  Proof.
    intros H Hs Hc. apply okapi_same_docs.
    - exact H.
    - eapply history_ok_lex; [|exact H]. apply lex_hist_clear.
    - exact Hs.
    - apply small_app.
      + intros d t Hin. apply in_map_iff in Hin as (o & Ho & _). discriminate.
      + intros d t Hin. apply (Hs d t). apply in_or_app. right. right. exact Hin.
    - apply docs_clear.
    - rewrite lex_hist_clear. reflexivity.
    - replace (h ++ TClear :: h') with ((h ++ [TClear]) ++ h') by (rewrite <- app_assoc; reflexivity).
      unfold words_cleared in *. rewrite !(fold_left_app _ _ h'). f_equal. f_equal.
      rewrite (surjective_pairing (fold_left _ (h ++ [TClear]) _)), Hc.
      rewrite (surjective_pairing (fold_left _ (map TOther (lex_hist h)) _)). f_equal.
      + rewrite fold_left_app. cbn [fold_left fst docs_step]. induction (lex_hist h) as [|o l IH]; [reflexivity|].
        cbn [map fold_left fst snd docs_step]. exact IH.
      + induction (lex_hist h) as [|o l IH]; [reflexivity|]. cbn [map fold_left fst snd docs_step]. exact IH.
  Qed.
End OkapiLaws.

Lemma glob_words lx (P : str -> Prop) wids q : bij lx ->
  (forall i, In i wids <-> exists w, get (lwids lx) w = Some i /\ P w) -> wids = ids lx q ->
  forall w, In w q <-> In w (lex_words lx) /\ P w.
Proof.
  intros Hb Hg Eq w.
  assert (Hlw : forall w, In w (lex_words lx) <-> exists i, get (lwids lx) w = Some i).
  { intros w'. unfold lex_words. rewrite keys_mem, mem_get. reflexivity. }
  rewrite Hlw. split.
  - intros Hw. assert (Hin : In (get_wid lx w) wids) by (rewrite Eq; apply in_map; exact Hw).
    apply Hg in Hin as (w' & Hw' & Hgm). assert (w = w') as ->; [|eauto].
    apply (get_wid_inj _ w' w _ Hb Hw'). unfold get_wid at 2. rewrite Hw'. reflexivity.
  - intros [[i Hi'] Hgm]. assert (Hin : In i wids) by (apply Hg; eauto). rewrite Eq in Hin.
    apply in_map_iff in Hin as (w' & He & Hw'). assert (w' = w) as ->; [|exact Hw'].
    apply (get_wid_inj _ w w' _ Hb Hi'). unfold get_wid at 2. rewrite Hi'. exact He.
Qed.

(** ** Searches in the Okapi index *)
Section OkapiSearches.
  Context {F : Type} {AF : Arith F} {SF : SafeArith F}.
  Variables K1 B : F.
  Context {OF : OkapiSafe K1 B}.
  Variable pipeline : list elem.
  Local Notation words t := (text_words pipeline t).
  Local Notation docs h := (docs_of pipeline h).
  Local Notation st h := (okapi_state pipeline h).

  Lemma okapi_total_pos h : history_ok pipeline h -> texts_small pipeline h ->
    forall w, In w (vocabulary (docs h)) -> 1 <= totaldoclen (six (st h)).
  Proof.
    intros H Hs w Hw. rewrite (okapi_total_ok pipeline h H Hs). pose proof (total_words_pos _ _ Hw).
    pose proof (words_cleared_nonneg pipeline h). lia.
  Qed.

  Lemma okapi_search_docs h t : history_ok pipeline h -> texts_small pipeline h ->
    (words t = [] -> search pipeline (python_search_wids K1 B) (st h) t = Ok None) /\
    (words t <> [] -> exists m, search pipeline (python_search_wids K1 B) (st h) t = Ok (Some m) /\
       forall d, mem d m = true <-> exists ws, get (docs h) d = Some ws /\ has_some (words t) ws).
  Proof.
    intros H Hs. destruct (okapi_state_ok pipeline h H) as (_ & _ & Hi & _).
    pose proof (search_docs pipeline f32Z okapi_fr okapi_keys (python_search_wids K1 B) (st h) (docs h) Hi _ _
      (oka_wids_ok K1 B _ _ Hi (okapi_total_pos h H Hs)) (oka_keys K1 B _ _ Hi) t) as HS.
    destruct (words t); split; intros E; try (contradiction || discriminate); exact HS.
  Qed.

  Lemma okapi_phrase_complete h t d ws : history_ok pipeline h -> texts_small pipeline h ->
    words t <> [] -> get (docs h) d = Some ws -> in_a_row (words t) ws ->
    exists m, search_phrase pipeline (python_search_wids K1 B) (st h) t = Ok m /\ mem d m = true.
  Proof.
    intros H Hs. destruct (okapi_state_ok pipeline h H) as (_ & _ & Hi & _).
    exact (phrase_complete pipeline f32Z okapi_fr okapi_keys (python_search_wids K1 B) (st h) (docs h) Hi _ _
      (oka_wids_ok K1 B _ _ Hi (okapi_total_pos h H Hs)) (oka_keys K1 B _ _ Hi) t d ws).
  Qed.
  Lemma okapi_phrase_sound h t : history_ok pipeline h -> texts_small pipeline h ->
    exists m, search_phrase pipeline (python_search_wids K1 B) (st h) t = Ok m /\
      forall d, mem d m = true -> words t <> [] /\ exists ws, get (docs h) d = Some ws /\ forall w, In w (words t) -> In w ws.
  Proof.
    intros H Hs. destruct (okapi_state_ok pipeline h H) as (_ & _ & Hi & _).
    destruct (phrase_docs pipeline f32Z okapi_fr okapi_keys (python_search_wids K1 B) (st h) (docs h) Hi _ _
      (oka_wids_ok K1 B _ _ Hi (okapi_total_pos h H Hs)) (oka_keys K1 B _ _ Hi) t) as (m & Em & Hm).
    exists m. split; [exact Em|]. intros d Hd. apply Hm in Hd as (Hn & ws & Ed & Ha & _). eauto.
  Qed.
  Lemma okapi_phrase_iff h t init l : history_ok pipeline h -> texts_small pipeline h -> words t = init ++ [l] ->
    exists m, search_phrase pipeline (python_search_wids K1 B) (st h) t = Ok m /\
      forall d, mem d m = true <-> exists ws, get (docs h) d = Some ws /\ (forall w, In w (words t) -> In w ws) /\
       exists l', in_a_row (init ++ [l']) ws /\
         (l' = l \/ exists k, 1 <= k <= 3 /\ get_wid (slx (st h)) l' / 128 ^ k = get_wid (slx (st h)) l).
  Proof.
    intros H Hs Ew. destruct (okapi_state_ok pipeline h H) as (_ & _ & Hi & _).
    pose proof (fun d => phrase_iff pipeline f32Z okapi_fr okapi_keys (python_search_wids K1 B) (st h) (docs h) Hi _ _
      (oka_wids_ok K1 B _ _ Hi (okapi_total_pos h H Hs)) (oka_keys K1 B _ _ Hi) t d init l Ew) as HP.
    destruct (HP 0) as (m & Em & _). exists m. split; [exact Em|]. intros d. destruct (HP d) as (m' & Em' & Hm).
    rewrite Em in Em'. injection Em' as <-. exact Hm.
  Qed.
  Lemma okapi_phrase_exact h t : history_ok pipeline h -> texts_small pipeline h -> words t <> [] ->
    (forall w, In w (vocabulary (docs h)) -> get_wid (slx (st h)) w < 128) ->
    exists m, search_phrase pipeline (python_search_wids K1 B) (st h) t = Ok m /\
      forall d, mem d m = true <-> exists ws, get (docs h) d = Some ws /\ in_a_row (words t) ws.
  Proof.
    intros H Hs Hn Hw. destruct (okapi_state_ok pipeline h H) as (_ & _ & Hi & _).
    pose proof (fun d => phrase_exact pipeline f32Z okapi_fr okapi_keys (python_search_wids K1 B) (st h) (docs h) Hi _ _
      (oka_wids_ok K1 B _ _ Hi (okapi_total_pos h H Hs)) (oka_keys K1 B _ _ Hi) t d Hn Hw) as HP.
    destruct (HP 0) as (m & Em & _). exists m. split; [exact Em|]. intros d. destruct (HP d) as (m' & Em' & Hm).
    rewrite Em in Em'. injection Em' as <-. exact Hm.
  Qed.

  Lemma okapi_glob_docs h prefix c rest : history_ok pipeline h -> texts_small pipeline h ->
    prefix <> [] -> plain prefix -> c = chr_star \/ c = chr_qm -> no_newline (slx (st h)) ->
    exists m, search_glob (python_search_wids K1 B) (st h) (prefix ++ c :: rest) = Ok m /\
      forall d, mem d m = true <-> exists ws w, get (docs h) d = Some ws /\ In w ws /\ glob_match (prefix ++ c :: rest) w.
  Proof.
    intros H Hs Hne Hpl Hc Hnl. destruct (okapi_state_ok pipeline h H) as (_ & _ & Hi & _).
    apply is_glob_char_iff in Hc. destruct (glob_exact (slx (st h)) prefix c rest Hne Hpl Hc Hnl) as (wids & Eg & Hg).
    destruct (search_glob_docs f32Z okapi_fr okapi_keys (python_search_wids K1 B) (st h) (docs h) Hi _ _
      (oka_wids_ok K1 B _ _ Hi (okapi_total_pos h H Hs)) (oka_keys K1 B _ _ Hi) _ _ wids Eg Hg) as (m & Em & Hm).
    exists m. split; [exact Em|]. intros d. rewrite Hm. split.
    - intros (ws & Ed & w & Hw & Hx). eauto.
    - intros (ws & w & Ed & Hw & Hx). eauto.
  Qed.

  Context {XF : ExactArith F}.
  Definition okapi_c h : str -> list str -> F := bm25 K1 B (docs h) (total_words (docs h) + words_cleared pipeline h).

  Lemma okapi_val h : history_ok pipeline h -> texts_small pipeline h -> forall w d ws, get (docs h) d = Some ws -> In w ws ->
    exists v, get (oka_map K1 B (st h) (get_wid (slx (st h)) w)) d = Some v /\ fmul v f1 = okapi_c h w ws.
  Proof.
    intros H Hs w d ws Ed Hw. destruct (okapi_state_ok pipeline h H) as (_ & _ & Hi & _).
    unfold okapi_c. rewrite <- (okapi_total_ok pipeline h H Hs).
    exact (oka_score_val K1 B _ _ Hi (okapi_total_pos h H Hs) (docs_small_ok pipeline h Hs) w d ws Ed Hw).
  Qed.

  Lemma okapi_search_scores h t m d ws : history_ok pipeline h -> texts_small pipeline h ->
    search pipeline (python_search_wids K1 B) (st h) t = Ok (Some m) -> get (docs h) d = Some ws ->
    get m d = if existsb (contains ws) (words t) then Some (words_score (okapi_c h) (words t) ws) else None.
  Proof.
    intros H Hs. destruct (okapi_state_ok pipeline h H) as (_ & _ & Hi & _).
    exact (search_scores pipeline f32Z okapi_fr okapi_keys (python_search_wids K1 B) (st h) (docs h) Hi _ _
      (oka_wids_ok K1 B _ _ Hi (okapi_total_pos h H Hs)) (oka_keys K1 B _ _ Hi) (okapi_c h) (okapi_val h H Hs) t m d ws).
  Qed.
  Lemma okapi_phrase_scores h t m d ws v : history_ok pipeline h -> texts_small pipeline h ->
    search_phrase pipeline (python_search_wids K1 B) (st h) t = Ok m -> get (docs h) d = Some ws -> get m d = Some v ->
    v = words_score (okapi_c h) (words t) ws.
  Proof.
    intros H Hs. destruct (okapi_state_ok pipeline h H) as (_ & _ & Hi & _).
    exact (phrase_scores pipeline f32Z okapi_fr okapi_keys (python_search_wids K1 B) (st h) (docs h) Hi _ _
      (oka_wids_ok K1 B _ _ Hi (okapi_total_pos h H Hs)) (oka_keys K1 B _ _ Hi) (okapi_c h) (okapi_val h H Hs) t m d ws v).
  Qed.

  Lemma okapi_glob_scores h prefix c rest : history_ok pipeline h -> texts_small pipeline h ->
    prefix <> [] -> plain prefix -> c = chr_star \/ c = chr_qm -> no_newline (slx (st h)) ->
    exists m q, search_glob (python_search_wids K1 B) (st h) (prefix ++ c :: rest) = Ok m /\
      NoDup q /\ (forall w, In w q <-> In w (lex_words (slx (st h))) /\ glob_match (prefix ++ c :: rest) w) /\
      forall d ws, get (docs h) d = Some ws ->
        get m d = if existsb (contains ws) q then Some (words_score (okapi_c h) q ws) else None.
  Proof.
    intros H Hs Hne Hpl Hc Hnl. destruct (okapi_state_ok pipeline h H) as (_ & _ & Hi & _).
    apply is_glob_char_iff in Hc. destruct (glob_exact (slx (st h)) prefix c rest Hne Hpl Hc Hnl) as (wids & Eg & Hg).
    pose proof Hi as (Hb & _).
    destruct (glob_scores f32Z okapi_fr okapi_keys (python_search_wids K1 B) (st h) (docs h) Hi _ _
      (oka_wids_ok K1 B _ _ Hi (okapi_total_pos h H Hs)) (oka_keys K1 B _ _ Hi) (okapi_c h) (okapi_val h H Hs) _ wids Eg
      (glob_nodup_bij _ _ _ _ Hb Eg)) as (q & m & Em & Hn & Eq & Hm).
    { intros i Hi'. apply Hg in Hi' as (w & Hw & _). eauto. }
    exists m, q. splits; [exact Em|exact Hn| |exact Hm]. exact (glob_words _ _ wids q Hb Hg Eq).
  Qed.
End OkapiSearches.
