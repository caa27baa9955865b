(** * Lemmas: answers do not depend on word ids *)
From Verif Require Import L_widcode L_lexicon L_setops L_baseindex L_textsys L_okapi L_cosine L_search L_okasearch L_cossearch
  L_textapi S_setops S_score S_text S_textapi M_cosine Ord.

(** ** Lists of words *)
Lemma sorted_words_ext (l1 l2 : list str) : StronglySorted lt l1 -> StronglySorted lt l2 ->
  (forall w, In w l1 <-> In w l2) -> l1 = l2.
Proof.
  intros H1. revert l2. induction H1 as [|a l1 H1 IH Ha]; intros l2 H2 H.
  - destruct l2 as [|b l2]; [reflexivity|]. destruct (proj2 (H b) (or_introl eq_refl)).
  - destruct H2 as [|b l2 H2 Hb]; [destruct (proj1 (H a) (or_introl eq_refl))|].
    rewrite Forall_forall in Ha, Hb. assert (a = b) as <-.
    { destruct (proj1 (H a) (or_introl eq_refl)) as [E|E]; [auto|]. destruct (proj2 (H b) (or_introl eq_refl)) as [E'|E']; [auto|].
      destruct (lt_irrefl a). exact (lt_trans _ _ _ (Ha b E') (Hb a E)). }
    f_equal. apply IH; [exact H2|]. intros w. split; intros Hw.
    + destruct (proj1 (H w) (or_intror Hw)) as [<-|E]; [destruct (lt_irrefl a (Ha a Hw))|exact E].
    + destruct (proj2 (H w) (or_intror Hw)) as [<-|E]; [destruct (lt_irrefl a (Hb a Hw))|exact E].
Qed.
Lemma filter_sorted_words (f : str -> bool) l : StronglySorted lt l -> StronglySorted lt (filter f l).
Proof.
  induction 1 as [|a l H IH Ha]; [constructor|]. cbn [filter]. destruct (f a); [|exact IH]. constructor; [exact IH|].
  rewrite Forall_forall in *. intros x Hx. apply filter_In in Hx as [Hx _]. auto.
Qed.
Lemma filter_map {A B} (f : B -> bool) (g : A -> B) l : filter f (map g l) = map g (filter (fun x => f (g x)) l).
Proof. induction l as [|x l IH]; [reflexivity|]. cbn [map filter]. rewrite IH. destruct (f (g x)); reflexivity. Qed.
Lemma filter_filter' {A} (f g : A -> bool) l : filter f (filter g l) = filter (fun x => g x && f x) l.
Proof. induction l as [|x l IH]; [reflexivity|]. cbn [filter]. destruct (g x); cbn [filter andb]; rewrite IH; reflexivity. Qed.

Lemma filter_full {A} (f : A -> bool) l : Zlen l = Zlen (filter f l) -> forall x, In x l -> f x = true.
Proof.
  unfold Zlen. intros H. apply Nat2Z.inj in H. induction l as [|y l IH]; intros x Hx; [destruct Hx|]. cbn [filter] in H.
  destruct (f y) eqn:E.
  - cbn [length] in H. destruct Hx as [<-|Hx]; [exact E|]. apply IH; [lia|exact Hx].
  - pose proof (filter_len f l) as Hl. cbn [length] in H. lia.
Qed.

Section Indep.
  Variable pipeline : list elem.
  Local Notation words t := (text_words pipeline t).
  Context {V : Type}.
  Variable rnd : V -> V.
  Variable fr : list Z -> smap Z V * V.
  Hypothesis freqs_keys : forall wids w, mem w (fst (fr wids)) = true <-> In w wids.
  Variable D : smap Z (list str).

  (** the words of the documents in order *)
  Definition vocab_sorted : list str := keys (set_of_list (vocabulary D)).

  Lemma glob_invocab (s : sys V) compile p : sysinv rnd fr s D ->
    rmap (remove_oov (six s)) (globToWordIds_with compile p (slx s)) =
    (let '(prefix, rest) := split_prefix p in
     match rest with
     | [] => Ok (ids (slx s) (filter (contains (vocabulary D)) [prefix]))
     | _ :: _ =>
         match prefix with
         | [] => Raise QueryError
         | _ :: _ => do prog <- compile (glob_regex_source prefix rest);
             Ok (ids (slx s) (filter (fun w => startswith w prefix && is_some (re_match prog w)) vocab_sorted))
         end
     end).
  Proof.
    intros inv. pose proof inv as (H1 & H2 & H3). unfold globToWordIds_with. destruct (split_prefix p) as [prefix rest].
    destruct rest as [|c rest].
    - cbn [rmap]. f_equal. pose proof (invocab_b rnd fr freqs_keys s D inv prefix) as Hb. unfold remove_oov.
      change (existsb (eqb prefix) (vocabulary D)) with (contains (vocabulary D) prefix) in Hb. cbn [filter].
      destruct (get_wid (slx s) prefix =? 0) eqn:E0.
      + cbn [filter]. destruct (contains (vocabulary D) prefix) eqn:Ec; [exfalso|reflexivity].
        apply existsb_eqb_In, vocabulary_In in Ec as (d & ws & Hd & Hw). destruct (H2 d ws Hd prefix Hw) as [i Hi].
        unfold get_wid in E0. rewrite Hi in E0. destruct H1 as (H1 & Hp & _). apply H1 in Hi. apply Hp in Hi. lia.
      + cbn [filter]. rewrite Hb. destruct (contains (vocabulary D) prefix); reflexivity.
    - destruct prefix as [|x prefix0]; [reflexivity|]. set (prefix := x :: prefix0) in *.
      destruct (compile (glob_regex_source prefix (c :: rest))) as [prog|e]; [|reflexivity]. cbn [bind rmap]. f_equal.
      rewrite glob_loop_filter.
      + set (f := fun w : str => startswith w prefix && is_some (re_match prog w)).
        change (fun p0 : str * Z => startswith (fst p0) prefix && is_some (re_match prog (fst p0))) with (fun p0 : str * Z => f (fst p0)).
        rewrite filter_filter'.
        assert (Hle : forall w, f w = true -> leb prefix w = true).
        { intros w Hw. apply andb_true_iff in Hw as [Hw _]. apply startswith_spec in Hw as [t ->]. apply prefix_le. }
        rewrite (filter_ext (fun x0 => leb prefix (fst x0) && f (fst x0)) (fun x0 => f (fst x0))).
        2:{ intros [w i]. cbn [fst]. destruct (f w) eqn:Ef; [rewrite (Hle w Ef); reflexivity|apply andb_false_r]. }
        transitivity (ids (slx s) (filter (contains (vocabulary D)) (filter f (keys (lwids (slx s)))))).
        * unfold remove_oov, keys, ids. rewrite !filter_map, !filter_filter', map_map.
          assert (Hg : forall q, In q (elts (lwids (slx s))) -> get_wid (slx s) (fst q) = snd q).
          { intros [w i] Hq. apply get_In in Hq. unfold get_wid. cbn [fst snd]. rewrite Hq. reflexivity. }
          revert Hg. generalize (elts (lwids (slx s))). intros l. induction l as [|[w i] l IH]; intros Hg; [reflexivity|].
          pose proof (Hg (w, i) (or_introl eq_refl)) as Ei. cbn [fst snd] in Ei. subst i. cbn [filter fst snd].
          rewrite (invocab_b rnd fr freqs_keys s D inv w). fold (contains (vocabulary D) w).
          specialize (IH (fun q Hq => Hg q (or_intror Hq))). destruct (f w && contains (vocabulary D) w); [|exact IH].
          cbn [map fst snd]. rewrite IH. reflexivity.
        * f_equal. rewrite filter_filter'. apply sorted_words_ext.
          -- apply filter_sorted_words, keys_sorted.
          -- apply filter_sorted_words, keys_sorted.
          -- intros w. rewrite !filter_In, andb_true_iff. unfold vocab_sorted. rewrite !keys_mem, mem_set_of_list_In.
             unfold contains. rewrite existsb_eqb_In. rewrite mem_get. split; [tauto|]. intros [Hv Hf]. splits; auto.
             apply vocabulary_In in Hv as (d & ws & Hd & Hw). exact (H2 d ws Hd w Hw).
      + apply filter_keys_sorted. exact (keys_sorted (lwids (slx s))).
      + apply Forall_forall. intros k Hk. apply in_map_iff in Hk as (q & <- & Hq). apply filter_In in Hq as [_ Hq].
        apply leb_le, Hq.
  Qed.

  Context {F : Type} {AF : Arith F}.
  Variable search_wids : bindex V -> list Z -> res (list (smap Z F * F)).
  Variables s1 s2 : sys V.
  Hypothesis inv1 : sysinv rnd fr s1 D.
  Hypothesis inv2 : sysinv rnd fr s2 D.
  Hypothesis same_scores : forall ws, (forall w, In w ws -> In w (vocabulary D)) ->
    search_wids (six s1) (ids (slx s1) ws) = search_wids (six s2) (ids (slx s2) ws).

  Lemma indep_search t : search pipeline search_wids s1 t = search pipeline search_wids s2 t.
  Proof.
    unfold search, termToWordIds. change (run_pipeline pipeline (text2list t)) with (words t).
    destruct (words t) as [|w0 l]; [reflexivity|]. cbn [map].
    change (get_wid (slx s1) w0 :: map (get_wid (slx s1)) l) with (ids (slx s1) (w0 :: l)).
    change (get_wid (slx s2) w0 :: map (get_wid (slx s2)) l) with (ids (slx s2) (w0 :: l)).
    rewrite (remove_oov_ids rnd fr freqs_keys s1 D inv1), (remove_oov_ids rnd fr freqs_keys s2 D inv2).
    rewrite same_scores; [reflexivity|]. intros w Hw. apply inv_words_In in Hw. apply Hw.
  Qed.

  Lemma indep_glob p : search_glob search_wids s1 p = search_glob search_wids s2 p.
  Proof.
    assert (E : forall s, search_glob search_wids s p =
      do wids <- rmap (remove_oov (six s)) (globToWordIds_with re_compile p (slx s));
      do L <- search_wids (six s) wids; mass_weightedUnion L).
    { intros s. unfold search_glob, globToWordIds. destruct (globToWordIds_with _ _ _); reflexivity. }
    rewrite !E, (glob_invocab s1 _ _ inv1), (glob_invocab s2 _ _ inv2). destruct (split_prefix p) as [prefix rest].
    destruct rest as [|c rest].
    - cbn [bind]. rewrite same_scores; [reflexivity|]. intros w Hw. apply filter_In in Hw as [_ Hw]. apply existsb_eqb_In. exact Hw.
    - destruct prefix as [|x prefix]; [reflexivity|]. destruct (re_compile _) as [prog|e]; [|reflexivity]. cbn [bind].
      rewrite same_scores; [reflexivity|]. intros w Hw. apply filter_In in Hw as [Hw _]. unfold vocab_sorted in Hw.
      rewrite keys_mem, mem_set_of_list_In in Hw. exact Hw.
  Qed.

  Lemma indep_phrase t :
    (forall d ws, get D d = Some ws -> (forall w, In w (words t) -> In w ws) ->
       str_contains (codes (ids (slx s1) ws)) (codes (ids (slx s1) (words t))) =
       str_contains (codes (ids (slx s2) ws)) (codes (ids (slx s2) (words t)))) ->
    (forall ws m, (forall w, In w ws -> In w (vocabulary D)) -> search_wids (six s1) (ids (slx s1) ws) = Ok m ->
       Forall2 (fun w p => forall d, mem d (fst p) = true -> exists ws', get D d = Some ws' /\ In w ws') ws m) ->
    search_phrase pipeline search_wids s1 t = search_phrase pipeline search_wids s2 t.
  Proof.
    intros Hc Hk. unfold search_phrase, termToWordIds. change (run_pipeline pipeline (text2list t)) with (words t).
    change (map (get_wid (slx s1)) (words t)) with (ids (slx s1) (words t)).
    change (map (get_wid (slx s2)) (words t)) with (ids (slx s2) (words t)).
    rewrite (remove_oov_ids rnd fr freqs_keys s1 D inv1), (remove_oov_ids rnd fr freqs_keys s2 D inv2), !ids_len.
    destruct (Zlen (words t) =? Zlen (inv_words D (words t))) eqn:El; cbn [negb]; [|reflexivity].
    assert (Hv : forall w, In w (words t) -> In w (vocabulary D)).
    { intros w Hw. apply existsb_eqb_In. apply Z.eqb_eq in El. exact (filter_full _ _ El w Hw). }
    rewrite <- (same_scores _ Hv). destruct (search_wids (six s1) (ids (slx s1) (words t))) as [m|e] eqn:Em; [|reflexivity].
    specialize (Hk _ _ Hv Em). cbn [bind].
    destruct (mass_inter_keys (map (fun p => (Some (fst p), snd p)) m)) as (hits & Eh & Hh). rewrite Eh. cbn [bind].
    destruct (is_empty hits) eqn:Ee; [reflexivity|].
    assert (HL : not_none (map (fun p => (Some (fst p), snd p)) m) = m).
    { unfold not_none. rewrite map_map. cbn [fst snd]. clear. induction m as [|[p q] l IH]; [reflexivity|].
      cbn [map concat app fst snd]. f_equal. exact IH. }
    rewrite HL in Hh.
    assert (Hhits : forall d, mem d hits = true -> exists ws, get D d = Some ws /\ forall w, In w (words t) -> In w ws).
    { intros d Hd. rewrite Hh, andb_true_iff, negb_true_iff, forallb_forall in Hd. destruct Hd as [Hn Hd].
      clear - Hk Hn Hd. revert Hn Hd. induction Hk as [|w p ws m Hp Hk IH]; [discriminate|]. intros _ Hd.
      destruct (Hp d (Hd p (or_introl eq_refl))) as (ws' & Ed & Hw). exists ws'. split; [exact Ed|]. intros w' [<-|Hw']; [exact Hw|].
      destruct m as [|q m]; [inversion Hk; subst; destruct Hw'|].
      destruct (IH eq_refl (fun x Hx => Hd x (or_intror Hx))) as (ws2 & Ed2 & H2). assert (ws2 = ws') as -> by congruence. auto. }
    assert (Hr : forall s, sysinv rnd fr s D -> Forall wid_ok (ids (slx s) (words t))).
    { intros s (H1 & H2 & H3). apply Forall_forall. intros i Hi. apply in_map_iff in Hi as (w & <- & Hw).
      specialize (Hv w Hw). apply vocabulary_In in Hv as (d & ws & Ed & Hin).
      pose proof (iv_range _ _ _ _ H3 d (ids (slx s) ws)) as Hr. rewrite get_idmap, Ed in Hr. specialize (Hr eq_refl).
      rewrite Forall_forall in Hr. apply Hr. apply in_map. exact Hin. }
    rewrite (encode_concat _ (Hr s1 inv1)), (encode_concat _ (Hr s2 inv2)). cbn [bind].
    assert (Hin : forall d v, In (d, v) (elts hits) -> exists ws, get D d = Some ws /\ forall w, In w (words t) -> In w ws).
    { intros d v Hd. apply Hhits. apply mem_get. exists v. apply get_In. exact Hd. }
    revert Hin. generalize (elts hits), (empty : smap Z F). intros l. induction l as [|[d v] l IH]; intros r Hin; [reflexivity|].
    cbn [phrase_loop]. destruct (Hin d v (or_introl eq_refl)) as (ws & Ed & Hw).
    pose proof inv1 as (_ & _ & I1). pose proof inv2 as (_ & _ & I2). unfold item.
    rewrite (iv_words _ _ _ _ I1), (iv_words _ _ _ _ I2), !get_idmap, Ed. cbn [option_map bind].
    change (concat (map code (ids (slx s1) (words t)))) with (codes (ids (slx s1) (words t))).
    change (concat (map code (ids (slx s2) (words t)))) with (codes (ids (slx s2) (words t))).
    rewrite (Hc d ws Ed Hw). apply IH. intros d' v' H'. apply (Hin d' v'). right. exact H'.
  Qed.
End Indep.

(** ** The Okapi index *)
Section IndepOkapi.
  Variable pipeline : list elem.
  Local Notation words t := (text_words pipeline t).
  Variable D : smap Z (list str).
  Local Notation okinv s := (sysinv f32Z okapi_fr s D).

  Lemma oka_weight_in s d ws w : okinv s -> get D d = Some ws ->
    weight_in okapi_fr (slx s) ws w = if contains ws w then Some (occurrences w ws) else None.
  Proof.
    intros (H1 & H2 & H3) Ed. unfold weight_in, okapi_fr. cbn [fst]. rewrite count_words_get, (filter_ids _ ws w H1 (H2 d ws Ed)).
    replace (existsb (eqb (get_wid (slx s) w)) (ids (slx s) ws)) with (contains ws w); [reflexivity|].
    apply bool_eq_iff. unfold contains. rewrite !existsb_eqb_In. symmetry. apply in_ids; [exact H1|exact (H2 d ws Ed)].
  Qed.
  Lemma oka_weight s d : okinv s -> get (docweight (six s)) d = option_map (fun ws => f32Z (Zlen ws)) (get D d).
  Proof.
    intros Hi. rewrite (weight_D _ _ _ _ _ Hi). destruct (get D d) as [ws|]; [|reflexivity].
    cbn [option_map okapi_fr snd]. rewrite ids_len. reflexivity.
  Qed.

  Hypothesis docs_small : forall d ws, get D d = Some ws -> Zlen ws <= 2 ^ 24.
  Lemma oka_posting s w d : okinv s ->
    get (posting_of s w) d = match get D d with
                             | Some ws => if contains ws w then Some (occurrences w ws) else None
                             | None => None
                             end.
  Proof.
    intros Hi. destruct (posting_D f32Z okapi_fr s D w d Hi) as (p & Hp & ->). destruct (get D d) as [ws|] eqn:Ed; [|reflexivity].
    rewrite (oka_weight_in s d ws w Hi Ed). destruct (contains ws w); [|reflexivity]. cbn [option_map]. f_equal.
    assert (E : f32Z (occurrences w ws) = occurrences w ws).
    { apply f32Z_small. pose proof (docs_small d ws Ed) as Hs. unfold occurrences, Zlen in *.
      pose proof (filter_len (eqb w) ws). lia. }
    destruct (Hp (occurrences w ws)) as [->| ->]; [reflexivity|exact E].
  Qed.

  Variables s1 s2 : sys Z.
  Hypothesis inv1 : okinv s1.
  Hypothesis inv2 : okinv s2.

  Lemma oka_same_item w : In w (vocabulary D) -> exists p1 p2,
    get (wordinfo (six s1)) (get_wid (slx s1) w) = Some p1 /\ get (wordinfo (six s2)) (get_wid (slx s2) w) = Some p2 /\
    p_map p1 = p_map p2 /\ forall d, mem d (p_map p1) = true -> exists ws, get D d = Some ws /\ In w ws.
  Proof.
    intros Hw. destruct (posting_item f32Z okapi_fr okapi_keys s1 D inv1 w Hw) as (p1 & E1 & P1).
    destruct (posting_item f32Z okapi_fr okapi_keys s2 D inv2 w Hw) as (p2 & E2 & P2).
    exists p1, p2. splits; [exact E1|exact E2| |].
    - rewrite P1, P2. apply smap_ext. intros d. rewrite !oka_posting by assumption. reflexivity.
    - intros d. rewrite P1. apply (posting_mem f32Z okapi_fr okapi_keys s1 D w d inv1).
  Qed.
  Lemma oka_same_docweight : docweight (six s1) = docweight (six s2).
  Proof. apply smap_ext. intros d. rewrite !oka_weight by assumption. reflexivity. Qed.
  Lemma oka_same_counts : documentCount (six s1) = documentCount (six s2) /\ wordCount (six s1) = wordCount (six s2).
  Proof.
    destruct (counts_D _ _ okapi_keys _ _ inv1) as [-> ->]. destruct (counts_D _ _ okapi_keys _ _ inv2) as [-> ->]. auto.
  Qed.

  Context {F : Type} {AF : Arith F}.
  Variables K1 B : F.
  Hypothesis same_total : totaldoclen (six s1) = totaldoclen (six s2).

  Lemma oka_same_scores ws : (forall w, In w ws -> In w (vocabulary D)) ->
    python_search_wids K1 B (six s1) (ids (slx s1) ws) = python_search_wids K1 B (six s2) (ids (slx s2) ws).
  Proof.
    intros Hv. unfold python_search_wids, mean_doc_len. rewrite same_total. destruct oka_same_counts as [Hc _]. rewrite Hc.
    destruct ws as [|w0 ws]; [reflexivity|].
    change (ids (slx s1) (w0 :: ws)) with (get_wid (slx s1) w0 :: ids (slx s1) ws).
    change (ids (slx s2) (w0 :: ws)) with (get_wid (slx s2) w0 :: ids (slx s2) ws).
    destruct (py_div _ _) as [mean|]; [|reflexivity]. cbn [bind].
    change (get_wid (slx s1) w0 :: ids (slx s1) ws) with (ids (slx s1) (w0 :: ws)).
    change (get_wid (slx s2) w0 :: ids (slx s2) ws) with (ids (slx s2) (w0 :: ws)).
    revert Hv. generalize (w0 :: ws). intros l. induction l as [|w l IH]; intros Hv; [reflexivity|]. cbn [ids map mapM].
    specialize (IH (fun w Hw => Hv w (or_intror Hw))). unfold ids in IH. rewrite IH.
    replace (py_search_wid K1 B (six s1) mean (get_wid (slx s1) w)) with (py_search_wid K1 B (six s2) mean (get_wid (slx s2) w)); [reflexivity|].
    destruct (oka_same_item w (Hv w (or_introl eq_refl))) as (p1 & p2 & E1 & E2 & E & _).
    unfold py_search_wid, item. rewrite E1, E2. cbn [bind]. rewrite E, Hc, oka_same_docweight. reflexivity.
  Qed.

  Lemma py_score_keys items docid2len (idf mean : F) : forall result m,
    py_score K1 B result items docid2len idf mean = Ok m ->
    forall d, mem d m = true -> mem d result = true \/ In d (map fst items).
  Proof.
    induction items as [|[d0 f] items IH]; intros result m; cbn [py_score].
    - intros [= <-] d Hd. auto.
    - intros H d Hd. apply bind_ok in H as (len & _ & H). apply bind_ok in H as (tf & _ & H).
      destruct (IH _ _ H d Hd) as [Hr|Hr]; [|right; right; exact Hr]. rewrite mem_put in Hr. apply orb_true_iff in Hr as [Hr|Hr]; [|auto].
      apply eqb_eq in Hr. subst. right. left. reflexivity.
  Qed.
  Lemma oka_scores_keys ws m : (forall w, In w ws -> In w (vocabulary D)) ->
    python_search_wids K1 B (six s1) (ids (slx s1) ws) = Ok m ->
    Forall2 (fun w p => forall d, mem d (fst p) = true -> exists ws', get D d = Some ws' /\ In w ws') ws m.
  Proof.
    intros Hv. unfold python_search_wids. destruct ws as [|w0 ws]; [intros [= <-]; constructor|].
    change (ids (slx s1) (w0 :: ws)) with (get_wid (slx s1) w0 :: ids (slx s1) ws). intros H. apply bind_ok in H as (mean & _ & H).
    change (get_wid (slx s1) w0 :: ids (slx s1) ws) with (ids (slx s1) (w0 :: ws)) in H. revert Hv m H.
    generalize (w0 :: ws). intros l. induction l as [|w l IH]; intros Hv m; cbn [ids map mapM]; [intros [= <-]; constructor|].
    intros H. apply bind_ok in H as (p & Hp & H). apply bind_ok in H as (m' & Hm & H). injection H as <-. constructor.
    - intros d Hd. destruct (oka_same_item w (Hv w (or_introl eq_refl))) as (p1 & p2 & E1 & E2 & E & Hmem).
      unfold py_search_wid, item in Hp. rewrite E1 in Hp. cbn [bind] in Hp. apply bind_ok in Hp as (idf & _ & Hp).
      apply bind_ok in Hp as (result & Hr & Hp). injection Hp as <-. cbn [fst] in Hd.
      destruct (py_score_keys _ _ _ _ _ _ Hr d Hd) as [H'|H']; [discriminate|]. apply Hmem. apply keys_mem. exact H'.
    - apply IH; [intros x Hx; apply Hv; right; exact Hx|exact Hm].
  Qed.

  Lemma oka_same_weight ts : okapi_query_weight pipeline K1 s1 ts = okapi_query_weight pipeline K1 s2 ts.
  Proof.
    unfold okapi_query_weight. rewrite oka_same_docweight.
    assert (E : forall s : sys Z, flat_map (fun term => termToWordIds pipeline term (slx s)) ts = ids (slx s) (flat_map (text_words pipeline) ts)).
    { intros s. unfold ids. induction ts as [|t l IH]; [reflexivity|]. cbn [flat_map]. rewrite map_app, IH. reflexivity. }
    rewrite !E, (remove_oov_ids f32Z okapi_fr okapi_keys s1 D inv1), (remove_oov_ids f32Z okapi_fr okapi_keys s2 D inv2).
    assert (Hv : forall w, In w (inv_words D (flat_map (text_words pipeline) ts)) -> In w (vocabulary D)).
    { intros w Hw. apply inv_words_In in Hw. apply Hw. }
    revert Hv. generalize (inv_words D (flat_map (text_words pipeline) ts)), (Ok f0 : res F). intros l.
    induction l as [|w l IH]; intros r Hv; [reflexivity|]. cbn [ids map fold_left].
    destruct (oka_same_item w (Hv w (or_introl eq_refl))) as (p1 & p2 & E1 & E2 & Ep & _).
    specialize (IH (do sum <- r; do idf <- inverse_doc_frequency (Zsize (p_map p2)) (fofZ (Zsize (docweight (six s2)))); Ok (fadd sum (fmul idf (fadd f1 K1))))
      (fun w Hw => Hv w (or_intror Hw))). unfold ids in IH.
    unfold item at 2 4. rewrite E1, E2. cbn [bind]. rewrite Ep. exact IH.
  Qed.
End IndepOkapi.

(** ** The cosine index *)
Section IndepCosine.
  Context {F : Type} {AF : Arith F} {SF : SafeArith F}.
  Variable pipeline : list elem.
  Local Notation words t := (text_words pipeline t).
  Variable D : smap Z (list str).
  Local Notation cosinv s := (sysinv f32 cos_fr s D).
  Variables s1 s2 : sys F.
  Hypothesis inv1 : cosinv s1.
  Hypothesis inv2 : cosinv s2.

  Lemma cos_same_map w : In w (vocabulary D) ->
    cos_map s1 (get_wid (slx s1) w) = cos_map s2 (get_wid (slx s2) w).
  Proof.
    intros Hv. apply smap_ext. intros d.
    assert (G : forall s, cosinv s -> get (cos_map s (get_wid (slx s) w)) d =
      match get D d with Some ws => if contains ws w then Some (f32 (cosine_weight w ws)) else None | None => None end).
    { intros s Hi. assert (Hn : mem d (cos_map s (get_wid (slx s) w)) = true <-> exists ws, get D d = Some ws /\ In w ws)
        by (apply cos_keys'; assumption).
      destruct (get D d) as [ws|] eqn:Ed; [destruct (contains ws w) eqn:Ec|].
      - apply cos_map_val with (D := D); [exact Hi|exact Ed|]. apply existsb_eqb_In. exact Ec.
      - apply mem_false. destruct (mem d _); [|reflexivity]. destruct (proj1 Hn eq_refl) as (ws' & [= <-] & Hw).
        apply existsb_eqb_In in Hw. unfold contains in Ec. congruence.
      - apply mem_false. destruct (mem d _); [|reflexivity]. destruct (proj1 Hn eq_refl) as (ws' & ? & _). discriminate. }
    rewrite !G by assumption. reflexivity.
  Qed.
  Lemma cos_same_scores ws : (forall w, In w ws -> In w (vocabulary D)) ->
    cos_search_wids (six s1) (ids (slx s1) ws) = cos_search_wids (six s2) (ids (slx s2) ws).
  Proof.
    intros Hv.
    assert (G : forall s, cosinv s -> cos_search_wids (six s) (ids (slx s) ws) =
      Ok (map (fun i => (cos_map s i, cos_idf s D i)) (ids (slx s) ws))).
    { intros s Hi. apply cos_wids_ok; [exact Hi|]. intros i Hin. apply in_map_iff in Hin as (w & <- & Hw).
      apply (invocab _ _ cos_keys s D Hi). auto. }
    rewrite !G by assumption. f_equal. unfold ids. rewrite !map_map. apply map_ext_in. intros w Hw.
    rewrite (cos_same_map w (Hv w Hw)), (cos_idf_word s1 D inv1 w (Hv w Hw)), (cos_idf_word s2 D inv2 w (Hv w Hw)). reflexivity.
  Qed.
  Lemma cos_scores_keys ws m : (forall w, In w ws -> In w (vocabulary D)) ->
    cos_search_wids (six s1) (ids (slx s1) ws) = Ok m ->
    Forall2 (fun w p => forall d, mem d (fst p) = true -> exists ws', get D d = Some ws' /\ In w ws') ws m.
  Proof.
    intros Hv H. rewrite (cos_wids_ok s1 D inv1) in H.
    - injection H as <-. induction ws as [|w ws IH]; [constructor|]. cbn [ids map]. constructor.
      + intros d. cbn [fst]. apply (cos_keys' s1 D inv1). apply Hv. left. reflexivity.
      + apply IH. intros x Hx. apply Hv. right. exact Hx.
    - intros i Hin. apply in_map_iff in Hin as (w & <- & Hw). apply (invocab _ _ cos_keys s1 D inv1). auto.
  Qed.
  Lemma cos_same_counts : documentCount (six s1) = documentCount (six s2) /\ wordCount (six s1) = wordCount (six s2).
  Proof.
    destruct (counts_D _ _ cos_keys _ _ inv1) as [-> ->]. destruct (counts_D _ _ cos_keys _ _ inv2) as [-> ->]. auto.
  Qed.
  Lemma cos_same_qweight ts : cos_query_weight pipeline s1 ts = cos_query_weight pipeline s2 ts.
  Proof.
    unfold cos_query_weight. rewrite (docweight_size _ _ s1 D inv1), (docweight_size _ _ s2 D inv2). f_equal.
    assert (E : forall s : sys F, flat_map (fun term => termToWordIds pipeline term (slx s)) ts = ids (slx s) (flat_map (text_words pipeline) ts)).
    { intros s. unfold ids. induction ts as [|t l IH]; [reflexivity|]. cbn [flat_map]. rewrite map_app, IH. reflexivity. }
    rewrite !E, (remove_oov_ids f32 cos_fr cos_keys s1 D inv1), (remove_oov_ids f32 cos_fr cos_keys s2 D inv2).
    assert (Hv : forall w, In w (inv_words D (flat_map (text_words pipeline) ts)) -> In w (vocabulary D)).
    { intros w Hw. apply inv_words_In in Hw. apply Hw. }
    revert Hv. generalize (inv_words D (flat_map (text_words pipeline) ts)), (Ok f0 : res F). intros l.
    induction l as [|w l IH]; intros r Hv; [reflexivity|]. cbn [ids map fold_left].
    destruct (posting_item _ _ cos_keys s1 D inv1 w (Hv w (or_introl eq_refl))) as (p1 & E1 & P1).
    destruct (posting_item _ _ cos_keys s2 D inv2 w (Hv w (or_introl eq_refl))) as (p2 & E2 & P2).
    assert (Ep : Zsize (p_map p1) = Zsize (p_map p2)).
    { rewrite P1, P2, (posting_size _ _ cos_keys s1 D inv1 w), (posting_size _ _ cos_keys s2 D inv2 w). reflexivity. }
    unfold item at 2 4. rewrite E1, E2. cbn [bind]. rewrite Ep. unfold ids in IH. apply IH. intros x Hx. apply Hv. right. exact Hx.
  Qed.
End IndepCosine.
