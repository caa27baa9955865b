(** * Lemmas: text indexes stored by old releases *)
From Verif Require Import L_widcode L_lexicon L_setops L_baseindex L_textsys L_okapi L_cosine L_search L_okasearch L_textapi L_costext L_textex L_fail L_tree L_indeptext
  S_tree S_upgrade S_score S_text S_textapi M_upgrade M_cosine Ord.

(** Does a call of [h] add a document or clear the index? *)
Fixpoint document_added (pipeline : list elem) (D : smap Z (list str)) (h : list top) : bool :=
  match h with
  | [] => false
  | o :: h' =>
      match o with
      | TIndex d _ => negb (mem d D)
      | TClear => true
      | _ => false
      end || document_added pipeline (docs_step pipeline D o) h'
  end.

Section Sim.
  Context {V : Type}.
  Variable rnd : V -> V.
  Variable veqb : V -> V -> bool.
  Variable freqs : list Z -> res (smap Z V * V).
  Variable pipeline : list elem.

  (** [wc], [dc]: the counter may, or does, still lack its [Length]. *)
  Record rel (wc dc : bool) (u : osys V) (s : sys V) : Prop := mkRel {
    r_same : same_contents u s;
    r_wc : o_wordCount (o_ix u) = Length (wordCount (six s)) \/ (wc = true /\ o_wordCount (o_ix u) = Method);
    r_dc : o_documentCount (o_ix u) = if dc then Method else Length (documentCount (six s));
    r_size : wordCount (six s) = Zsize (wordinfo (six s))
  }.
  Definition docs_counted (s : sys V) : Prop := documentCount (six s) = Zsize (docweight (six s)).

  Definition sim {A} (wc dc wc' dc' : bool) (m : sx (osys V) A) (n : sx (sys V) A) : Prop :=
    forall u s s' a, rel wc dc u s -> n s = (s', Ok a) -> exists u', m u = (u', Ok a) /\ rel wc' dc' u' s'.
  (** when the index is counted right afterwards *)
  Definition simD {A} (wc dc wc' dc' : bool) (m : sx (osys V) A) (n : sx (sys V) A) : Prop :=
    forall u s s' a, rel wc dc u s -> n s = (s', Ok a) -> docs_counted s' -> exists u', m u = (u', Ok a) /\ rel wc' dc' u' s'.

  Lemma sim_simD {A} wc dc wc' dc' (m : sx (osys V) A) n : sim wc dc wc' dc' m n -> simD wc dc wc' dc' m n.
  Proof. intros H u s s' a Hr E _. exact (H u s s' a Hr E). Qed.
  Lemma sim_ret {A} wc dc (a : A) : sim wc dc wc dc (sret a) (sret a).
  Proof. intros u s s' b Hr E. injection E as <- <-. exists u. auto. Qed.
  Lemma sim_bind {A B} wc dc wc1 dc1 wc2 dc2 (m : sx (osys V) A) n (f : A -> sx (osys V) B) g :
    sim wc dc wc1 dc1 m n -> (forall a, sim wc1 dc1 wc2 dc2 (f a) (g a)) -> sim wc dc wc2 dc2 (sbind m f) (sbind n g).
  Proof.
    intros H1 H2 u s s' b Hr E. unfold sbind in *. destruct (n s) as [s1 [a|e]] eqn:En; [|discriminate].
    destruct (H1 _ _ _ _ Hr En) as (u1 & -> & Hr1). exact (H2 a _ _ _ _ Hr1 E).
  Qed.
  Lemma simD_bind {A B} wc dc wc1 dc1 wc2 dc2 (m : sx (osys V) A) n (f : A -> sx (osys V) B) g :
    sim wc dc wc1 dc1 m n -> (forall a, simD wc1 dc1 wc2 dc2 (f a) (g a)) -> simD wc dc wc2 dc2 (sbind m f) (sbind n g).
  Proof.
    intros H1 H2 u s s' b Hr E Hd. unfold sbind in *. destruct (n s) as [s1 [a|e]] eqn:En; [|discriminate].
    destruct (H1 _ _ _ _ Hr En) as (u1 & -> & Hr1). exact (H2 a _ _ _ _ Hr1 E Hd).
  Qed.
  Lemma sim_lift {A} wc dc (f : osys V -> res A) g :
    (forall u s, rel wc dc u s -> f u = g s) -> sim wc dc wc dc (slift f) (slift g).
  Proof.
    intros H u s s' a Hr E. unfold slift in *. injection E as <- E. exists u. rewrite (H u s Hr), E. auto.
  Qed.
  Lemma sim_iter {A} wc dc (f : A -> sx (osys V) unit) g l :
    (forall x, sim wc dc wc dc (f x) (g x)) -> sim wc dc wc dc (siter f l) (siter g l).
  Proof. intros H. induction l as [|x l IH]; cbn [siter]; [apply sim_ret|]. eapply sim_bind; [apply H|intros _; exact IH]. Qed.
  Lemma sim_on wc dc wc' dc' (f : oix V -> oix V) g :
    (forall lx ix u, rel wc dc u (mkSys lx ix) -> rel wc' dc' (mkOSys (o_lx u) (f (o_ix u))) (mkSys lx (g ix))) ->
    sim wc dc wc' dc' (on_oix f) (on_ix g).
  Proof.
    intros H u [lx ix] s' a Hr E. injection E as <- <-. exists (mkOSys (o_lx u) (f (o_ix u))). split; [reflexivity|]. exact (H lx ix u Hr).
  Qed.

  Lemma sim_clear wc dc : sim wc dc false false o_clear clear.
  Proof.
    apply sim_on. intros lx ix u [(H1 & H2 & H3 & H4 & H5) _ _ _]. constructor; cbn; try reflexivity; [|left; reflexivity].
    unfold same_contents. cbn. auto.
  Qed.
  Lemma sim_source wc dc t : sim wc dc wc dc (o_source pipeline t) (source pipeline t).
  Proof.
    intros u s s' a [(H1 & H2 & H3 & H4 & H5) H6 H7 H8] E. unfold o_source, source in *. rewrite H1.
    destruct (sourceToWordIds pipeline t (slx s)) as [lx r]. injection E as <- ->. eexists. split; [reflexivity|].
    constructor; cbn [o_lx o_ix six]; try assumption. split; [|cbn; auto]. cbn. destruct lx. reflexivity.
  Qed.
  Lemma sim_add wc dc wid f d : sim wc dc wc dc (on_oix (o_add_wordinfo rnd wid f d)) (on_ix (add_wordinfo rnd wid f d)).
  Proof.
    apply sim_on. intros lx ix u [(H1 & H2 & H3 & H4 & H5) H6 H7 H8]. cbn [six slx] in *. unfold o_add_wordinfo, add_wordinfo.
    rewrite H2. destruct (get (wordinfo ix) wid) as [p|] eqn:E.
    - constructor; cbn; try assumption; [split; cbn; auto|]. rewrite (Zsize_put_old _ _ _ _ E). assumption.
    - assert (Hs : Zsize (put wid (p_set rnd d f (mkPosting true empty)) (wordinfo ix)) = Zsize (wordinfo ix) + 1).
      { exact (Zsize_put_new _ _ _ E). }
      constructor; cbn; try assumption; [split; cbn; auto| |].
      + left. unfold count_change. destruct H6 as [-> |[_ ->]]; [reflexivity|]. f_equal. lia.
      + rewrite Hs. lia.
  Qed.
  Lemma mass_size d (l : list (Z * V)) : forall wi n, Zsize (fst (fold_left (mass_step rnd d) l (wi, n))) - snd (fold_left (mass_step rnd d) l (wi, n)) = Zsize wi - n.
  Proof.
    induction l as [|[k v] l IH]; intros wi n; [reflexivity|]. cbn [fold_left]. unfold mass_step at 2 4. cbn [fst snd].
    destruct (get wi k) as [p|] eqn:E; rewrite IH.
    - rewrite (Zsize_put_old _ _ _ _ E). reflexivity.
    - rewrite (Zsize_put_new _ _ _ E). lia.
  Qed.
  Lemma sim_mass wc dc m d : sim wc dc false dc (on_oix (o_mass_add_wordinfo rnd m d)) (on_ix (mass_add_wordinfo rnd m d)).
  Proof.
    apply sim_on. intros lx ix u [(H1 & H2 & H3 & H4 & H5) H6 H7 H8]. cbn [six slx] in *. unfold o_mass_add_wordinfo, mass_add_wordinfo.
    rewrite H2. pose proof (mass_size d (elts m) (wordinfo ix) 0) as Hm.
    destruct (fold_left (mass_step rnd d) (elts m) (wordinfo ix, 0)) as [wi n]. cbn [fst snd] in Hm.
    constructor; cbn; try assumption; [split; cbn; auto| |lia].
    left. unfold count_change. destruct H6 as [-> |[_ ->]]; [reflexivity|]. f_equal. lia.
  Qed.
  Lemma sim_del wc dc wid d : sim wc dc wc dc (o_del_wordinfo wid d) (del_wordinfo wid d).
  Proof.
    unfold o_del_wordinfo, del_wordinfo.
    intros u [lx ix] s' a Hr E. pose proof Hr as [(H1 & H2 & H3 & H4 & H5) H6 H7 H8]. cbn [six slx] in *.
    unfold sbind, slift in *. cbn [six] in *. rewrite H2. unfold item in *.
    destruct (get (wordinfo ix) wid) as [p|] eqn:Ew; [|discriminate]. destruct (get (p_map p) d) as [v|] eqn:Ed; [|discriminate].
    cbn [p_map] in *. destruct (is_empty (del d (p_map p))); injection E as <- <-; eexists; (split; [reflexivity|]); cbn [on_oix smod slx six].
    - assert (Hs : Zsize (del wid (wordinfo ix)) = Zsize (wordinfo ix) - 1).
      { exact (Zsize_del _ _ _ Ew). }
      constructor; cbn; try assumption; [split; cbn; rewrite ?H2; auto| |].
      + left. unfold count_change. destruct H6 as [-> |[_ ->]]; [reflexivity|]. f_equal. rewrite H2, Hs. lia.
      + rewrite Hs. lia.
    - constructor; cbn; try assumption; [split; cbn; rewrite ?H2; auto|]. rewrite (Zsize_put_old _ _ _ _ Ew). assumption.
  Qed.
  Lemma sim_docweight wc dc d v : sim wc dc wc dc (on_oix (fun ix => oset_docweight (put d v (o_docweight ix)) ix))
    (on_ix (fun ix => set_docweight (put d v (docweight ix)) ix)).
  Proof.
    apply sim_on. intros lx ix u [(H1 & H2 & H3 & H4 & H5) H6 H7 H8]. cbn [six slx] in *.
    constructor; cbn; try assumption. split; cbn; rewrite ?H3; auto.
  Qed.
  Lemma sim_docwords wc dc d v : sim wc dc wc dc (on_oix (fun ix => oset_docwords (put d v (o_docwords ix)) ix))
    (on_ix (fun ix => set_docwords (put d v (docwords ix)) ix)).
  Proof.
    apply sim_on. intros lx ix u [(H1 & H2 & H3 & H4 & H5) H6 H7 H8]. cbn [six slx] in *.
    constructor; cbn; try assumption. split; cbn; rewrite ?H4; auto.
  Qed.
  Lemma sim_get_words wc dc d : sim wc dc wc dc (slift (fun s => o_get_words (o_ix s) d)) (slift (fun s => get_words (six s) d)).
  Proof. apply sim_lift. intros u s [(_ & _ & _ & H & _) _ _ _]. unfold o_get_words, get_words. rewrite H. reflexivity. Qed.
  Lemma sim_const {A} wc dc (r : res A) : sim wc dc wc dc (slift (fun _ => r)) (slift (fun _ => r)).
  Proof. apply sim_lift. reflexivity. Qed.
  Lemma sim_count n wc dc : simD wc dc wc false
    (on_oix (fun ix => oset_documentCount (count_change (o_documentCount ix) n (Zsize (o_docweight ix))) ix)) (on_ix (change_documentCount n)).
  Proof.
    intros u [lx ix] s' a [(H1 & H2 & H3 & H4 & H5) H6 H7 H8] E Hd. cbn [six slx] in *. injection E as <- <-. unfold docs_counted in Hd. cbn in Hd.
    eexists. split; [reflexivity|]. constructor; cbn [o_ix six change_documentCount oset_documentCount o_wordCount o_documentCount wordCount wordinfo documentCount]; try assumption; [split; cbn; auto|].
    rewrite H7. unfold count_change. destruct dc; [|reflexivity]. rewrite H3. f_equal. lia.
  Qed.

  Lemma sim_reindex wc dc d t : sim wc dc wc dc (o_reindex rnd veqb freqs d (o_source pipeline t)) (base_reindex_with rnd veqb freqs d (source pipeline t)).
  Proof.
    unfold o_reindex, base_reindex_with. eapply sim_bind; [apply sim_get_words|]. intros ow.
    eapply sim_bind; [apply sim_const|]. intros [ow2w ?]. eapply sim_bind; [apply sim_source|]. intros nw.
    eapply sim_bind; [apply sim_const|]. intros [nw2w ndw].
    eapply sim_bind; [apply sim_iter; intros wid; apply sim_del|]. intros _.
    eapply sim_bind; [apply sim_iter; intros wid; eapply sim_bind; [apply sim_const|]; intros w; apply sim_add|]. intros _.
    eapply sim_bind.
    { apply sim_iter; intros wid. eapply sim_bind; [apply sim_const|]. intros x. eapply sim_bind; [apply sim_const|]. intros y.
      destruct (negb (veqb y x)); [apply sim_add|apply sim_ret]. }
    intros _. eapply sim_bind; [apply sim_docweight|]. intros _. eapply sim_bind; [apply sim_const|]. intros code.
    eapply sim_bind; [apply sim_docwords|]. intros _. apply sim_ret.
  Qed.
  Lemma rel_has_doc wc dc u s d : rel wc dc u s -> o_has_doc (o_ix u) d = has_doc (six s) d.
  Proof. intros [(_ & _ & _ & H & _) _ _ _]. unfold o_has_doc, has_doc. rewrite H. reflexivity. Qed.

  Lemma sim_new wc dc d t : simD wc dc false false
    (sdo wids <- o_source pipeline t;
     sdo (wid2weight, docw) <- slift (fun _ => freqs wids);
     sdo _ <- on_oix (o_mass_add_wordinfo rnd wid2weight d);
     sdo _ <- on_oix (fun ix => oset_docweight (put d (rnd docw) (o_docweight ix)) ix);
     sdo code <- slift (fun _ => encode wids);
     sdo _ <- on_oix (fun ix => oset_docwords (put d code (o_docwords ix)) ix);
     sdo _ <- on_oix (fun ix => oset_documentCount (count_change (o_documentCount ix) 1 (Zsize (o_docweight ix))) ix);
     sret (Zlen wids))
    (sdo wids <- source pipeline t;
     sdo (wid2weight, docw) <- slift (fun _ => freqs wids);
     sdo _ <- on_ix (mass_add_wordinfo rnd wid2weight d);
     sdo _ <- on_ix (fun ix => set_docweight (put d (rnd docw) (docweight ix)) ix);
     sdo code <- slift (fun _ => encode wids);
     sdo _ <- on_ix (fun ix => set_docwords (put d code (docwords ix)) ix);
     sdo _ <- on_ix (change_documentCount 1);
     sret (Zlen wids)).
  Proof.
    eapply simD_bind; [apply sim_source|]. intros wids. eapply simD_bind; [apply sim_const|]. intros [m dw].
    eapply simD_bind; [apply sim_mass|]. intros _. eapply simD_bind; [apply sim_docweight|]. intros _.
    eapply simD_bind; [apply sim_const|]. intros code. eapply simD_bind; [apply sim_docwords|]. intros _.
    intros u s s' a Hr E Hd. unfold sbind in *. destruct (on_ix (change_documentCount 1) s) as [s1 [[]|e]] eqn:E1; [|discriminate].
    injection E as <- <-. destruct (sim_count 1 _ _ u s s1 tt Hr E1 Hd) as (u1 & -> & Hr1). exists u1. split; [reflexivity|exact Hr1].
  Qed.
  Lemma sim_index re ore wc dc d t : (forall wc dc, sim wc dc wc dc (ore d (o_source pipeline t)) (re d (source pipeline t))) ->
    forall u s s' a, rel wc dc u s -> base_index_doc_with rnd freqs re d (source pipeline t) s = (s', Ok a) -> docs_counted s' ->
    exists u', o_index_doc rnd freqs ore d (o_source pipeline t) u = (u', Ok a) /\ rel (wc && has_doc (six s) d) (dc && has_doc (six s) d) u' s'.
  Proof.
    intros Hre u s s' a Hr E Hd. unfold o_index_doc, base_index_doc_with in *. rewrite (rel_has_doc _ _ _ _ _ Hr).
    destruct (has_doc (six s) d).
    - rewrite !andb_true_r. exact (Hre wc dc u s s' a Hr E).
    - rewrite !andb_false_r. exact (sim_new wc dc d t u s s' a Hr E Hd).
  Qed.
  Lemma sim_unindex wc dc d : forall u s s' a, rel wc dc u s -> base_unindex_doc d s = (s', Ok a) -> docs_counted s' ->
    exists u', o_unindex_doc d u = (u', Ok a) /\ rel wc (dc && negb (has_doc (six s) d)) u' s'.
  Proof.
    intros u s s' a Hr E Hd. unfold o_unindex_doc, base_unindex_doc in *. rewrite (rel_has_doc _ _ _ _ _ Hr).
    destruct (has_doc (six s) d); cbn [negb] in *.
    - rewrite andb_false_r. revert u s s' a Hr E Hd. change (simD wc dc wc false
       (sdo wids <- slift (fun s => o_get_words (o_ix s) d);
       sdo _ <- siter (fun wid => o_del_wordinfo wid d) (selems (set_of_list wids));
       sdo _ <- o_delitem o_docwords oset_docwords d;
       sdo _ <- o_delitem o_docweight oset_docweight d;
       on_oix (fun ix => oset_documentCount (count_change (o_documentCount ix) (-1) (Zsize (o_docweight ix))) ix))
       (sdo wids <- slift (fun s => get_words (six s) d);
       sdo _ <- siter (fun wid => del_wordinfo wid d) (selems (set_of_list wids));
       sdo _ <- delitem docwords set_docwords d;
       sdo _ <- delitem docweight set_docweight d;
       on_ix (change_documentCount (-1)))).
      eapply simD_bind; [apply sim_get_words|]. intros wids. eapply simD_bind; [apply sim_iter; intros wid; apply sim_del|]. intros _.
      eapply (simD_bind wc dc wc dc).
      { eapply sim_bind; [apply sim_lift; intros u s [(_ & _ & _ & H & _) _ _ _]; rewrite H; reflexivity|]. intros _.
        apply sim_on. intros lx ix u [(H1 & H2 & H3 & H4 & H5) H6 H7 H8]. cbn [six slx] in *.
        constructor; cbn; try assumption. split; cbn; rewrite ?H4; auto. }
      intros _. eapply (simD_bind wc dc wc dc).
      { eapply sim_bind; [apply sim_lift; intros u s [(_ & _ & H & _) _ _ _]; rewrite H; reflexivity|]. intros _.
        apply sim_on. intros lx ix u [(H1 & H2 & H3 & H4 & H5) H6 H7 H8]. cbn [six slx] in *.
        constructor; cbn; try assumption. split; cbn; rewrite ?H3; auto. }
      intros _. apply sim_count.
    - rewrite andb_true_r. injection E as <- <-. exists u. auto.
  Qed.

  Lemma sim_other wc dc o : sim wc dc wc dc
    (smod (fun s => mkOSys (lex_counted (lex_step pipeline (lex_value (o_lx s)) o)) (o_ix s)))
    (smod (fun s => mkSys (lex_step pipeline (slx s) o) (six s))).
  Proof.
    intros u s s' a [(H1 & H2 & H3 & H4 & H5) H6 H7 H8] E. injection E as <- <-. eexists. split; [reflexivity|].
    constructor; cbn [o_lx o_ix slx six]; try assumption. split; [|cbn; auto]. cbn [o_lx slx]. rewrite H1.
    destruct (lex_step pipeline (slx s) o). reflexivity.
  Qed.
End Sim.

Section RunSim.
  Context {V : Type}.
  Variable pipeline : list elem.
  Variable step : top -> sx (sys V) unit.
  Variable ostep : top -> sx (osys V) unit.
  Variable st : list top -> sys V.
  Definition step_adds (s : sys V) (o : top) : bool :=
    match o with TIndex d _ => negb (has_doc (six s) d) | TClear => true | _ => false end.
  Definition step_changes (s : sys V) (o : top) : bool :=
    match o with TIndex d _ => negb (has_doc (six s) d) | TUnindex d => has_doc (six s) d | TClear => true | TOther _ => false end.
  Hypothesis Hstep : forall wc dc o u s s', rel wc dc u s -> step o s = (s', Ok tt) -> docs_counted s' ->
    exists u', ostep o u = (u', Ok tt) /\ rel (wc && negb (step_adds s o)) (dc && negb (step_changes s o)) u' s'.
  Hypothesis Hrun : forall h, history_ok pipeline h -> siter step h (mkSys lex_new ix_new) = (st h, Ok tt).
  Hypothesis Hcount : forall h, history_ok pipeline h -> docs_counted (st h).
  Hypothesis Hdocs : forall h d, history_ok pipeline h -> has_doc (six (st h)) d = mem d (docs_of pipeline h).

  Lemma run_sim h : forall h0 wc dc u, history_ok pipeline (h0 ++ h) -> rel wc dc u (st h0) ->
    exists u', siter ostep h u = (u', Ok tt) /\
      rel (wc && negb (document_added pipeline (docs_of pipeline h0) h)) (dc && negb (documents_change pipeline (docs_of pipeline h0) h))
        u' (st (h0 ++ h)).
  Proof.
    induction h as [|o h IH]; intros h0 wc dc u Hh Hr.
    - exists u. cbn [siter document_added documents_change]. rewrite app_nil_r, !andb_true_r. auto.
    - replace (h0 ++ o :: h) with ((h0 ++ [o]) ++ h) in * by (rewrite <- app_assoc; reflexivity).
      pose proof (history_prefix _ _ _ Hh) as Ho. pose proof (history_prefix _ _ _ Ho) as H0.
      assert (E : step o (st h0) = (st (h0 ++ [o]), Ok tt)).
      { pose proof (Hrun _ Ho) as E. rewrite siter_app, (Hrun _ H0) in E. cbn [siter] in E. unfold sbind in E.
        destruct (step o (st h0)) as [s1 [[]|e]]; [exact E|discriminate]. }
      destruct (Hstep _ _ _ _ _ _ Hr E (Hcount _ Ho)) as (u1 & E1 & Hr1).
      destruct (IH _ _ _ _ Hh Hr1) as (u2 & E2 & Hr2). exists u2. split.
      + cbn [siter]. unfold sbind. rewrite E1. exact E2.
      + cbn [document_added documents_change]. rewrite !negb_orb, !andb_assoc.
        replace (docs_step pipeline (docs_of pipeline h0) o) with (docs_of pipeline (h0 ++ [o])) by (rewrite docs_of_app; reflexivity).
        unfold step_adds, step_changes in Hr2. destruct o as [d t|d| |o]; rewrite ?(Hdocs _ _ H0) in Hr2; exact Hr2.
  Qed.

  (** from the stored index on *)
  Hypothesis Hlex : forall h, history_ok pipeline h -> slx (st h) = lex_run pipeline (lex_hist h).
  Hypothesis Hwords : forall h, history_ok pipeline h -> wordCount (six (st h)) = Zsize (wordinfo (six (st h))).
  Hypothesis Hcounter : forall s n, step (TOther (LCounter n)) s = (mkSys (mkLex (lwids (slx s)) (lwords (slx s)) n) (six s), Ok tt).

  Lemma rel_stored a h1 h2 : history_ok pipeline (restored pipeline a h1 h2) ->
    rel (no_wordCount a) (no_documentCount a) (stored_by a (st h1))
      (st (h1 ++ (if no_lexCount a then [TOther (LCounter (Zlen (lex_words (lex_run pipeline (lex_hist h1)))))] else []))).
  Proof.
    intros H. unfold restored in H. rewrite app_assoc in H. apply history_prefix in H. pose proof (history_prefix _ _ _ H) as H1.
    assert (E : st (h1 ++ (if no_lexCount a then [TOther (LCounter (Zlen (lex_words (lex_run pipeline (lex_hist h1)))))] else [])) =
      mkSys (lex_value (o_lx (stored_by a (st h1)))) (six (st h1))).
    { unfold stored_by. cbn [o_lx]. destruct (no_lexCount a).
      - pose proof (Hrun _ H) as E. rewrite siter_app, (Hrun _ H1) in E. cbn [siter] in E. unfold sbind in E. rewrite Hcounter in E.
        injection E as <-. unfold lex_value, olex_wordCount. cbn [ol_wids ol_words ol_count]. rewrite <- (Hlex _ H1). f_equal. f_equal.
        unfold lex_words, keys, Zlen, Zsize, size. rewrite map_length. reflexivity.
      - rewrite app_nil_r. unfold lex_value, olex_wordCount. cbn [ol_wids ol_words ol_count]. destruct (st h1) as [[]]. reflexivity. }
    rewrite E. constructor; cbn [six slx stored_by o_ix o_wordCount o_documentCount].
    - unfold same_contents. cbn. destruct (int_total a); auto.
    - destruct (no_wordCount a); auto.
    - reflexivity.
    - exact (Hwords _ H1).
  Qed.
  Lemma stored_sim a h1 h2 : history_ok pipeline (restored pipeline a h1 h2) ->
    exists u, siter ostep h2 (stored_by a (st h1)) = (u, Ok tt) /\
      rel (no_wordCount a && negb (document_added pipeline (docs_of pipeline h1) h2))
          (no_documentCount a && negb (documents_change pipeline (docs_of pipeline h1) h2)) u (st (restored pipeline a h1 h2)).
  Proof.
    intros H. pose proof (rel_stored a h1 h2 H) as Hr. unfold restored in *. rewrite app_assoc in *.
    destruct (run_sim h2 _ _ _ _ H Hr) as (u & E & Hu). exists u. split; [exact E|].
    replace (docs_of pipeline h1) with (docs_of pipeline (h1 ++ (if no_lexCount a then [TOther (LCounter (Zlen (lex_words (lex_run pipeline (lex_hist h1)))))] else []))); [exact Hu|].
    rewrite docs_of_app. destruct (no_lexCount a); reflexivity.
  Qed.
End RunSim.

Lemma docs_restored pipeline a h1 h2 : docs_of pipeline (restored pipeline a h1 h2) = docs_of pipeline (h1 ++ h2).
Proof. unfold restored. rewrite !docs_of_app, fold_left_app. destruct (no_lexCount a); reflexivity. Qed.

(** ** The two classes *)
Lemma okapi_step_sim pipeline wc dc o u s s' : rel wc dc u s ->
  op_step pipeline (okapi_index_doc pipeline) okapi_unindex_doc o s = (s', Ok tt) -> docs_counted s' ->
  exists u', o_step pipeline (o_okapi_index_doc pipeline) o_okapi_unindex_doc o u = (u', Ok tt) /\
    rel (wc && negb (step_adds s o)) (dc && negb (step_changes s o)) u' s'.
Proof.
  assert (Hlen : forall wc dc n, sim wc dc wc dc (o_change_doc_len n) (change_doc_len n)).
  { intros wc0 dc0 n. apply sim_on. intros lx ix u0 [(H1 & H2 & H3 & H4 & H5) H6 H7 H8]. cbn [six slx] in *.
    constructor; cbn; try assumption. split; cbn; auto. splits; auto. destruct (o_total (o_ix u0)); cbn in *; lia. }
  assert (Hitem : forall wc dc d, sim wc dc wc dc (slift (fun s : osys Z => item (o_docweight (o_ix s)) d)) (slift (fun s => item (docweight (six s)) d))).
  { intros wc0 dc0 d. apply sim_lift. intros u0 s0 [(_ & _ & H & _) _ _ _]. rewrite H. reflexivity. }
  intros Hr E Hd. destruct o as [d t|d| |o]; cbn [op_step o_step step_adds step_changes] in *.
  - unfold sbind at 1 in E. unfold okapi_index_doc, okapi_index_doc_with in E. unfold sbind at 1 in E.
    destruct (base_index_doc_with f32Z okapi_freqs okapi_reindex d (source pipeline t) s) as [s1 [n|e]] eqn:E1; [|discriminate].
    unfold sbind, change_doc_len, on_ix, smod, sret in E. injection E as <-.
    assert (Hd1 : docs_counted s1) by (exact Hd).
    destruct (sim_index f32Z Z.eqb okapi_freqs pipeline okapi_reindex o_okapi_reindex wc dc d t) with (u := u) (s := s) (s' := s1) (a := n) as (u1 & F1 & Hr1); try assumption.
    { intros wc0 dc0. unfold o_okapi_reindex, okapi_reindex. eapply sim_bind; [apply Hitem|]. intros w. eapply sim_bind; [apply Hlen|]. intros _. apply sim_reindex. }
    destruct (Hlen _ _ n u1 s1 _ tt Hr1 eq_refl) as (u2 & F2 & Hr2). exists u2. split.
    + unfold sbind at 1. unfold o_okapi_index_doc. unfold sbind at 1. rewrite F1. unfold sbind. rewrite F2. reflexivity.
    + rewrite !negb_involutive. exact Hr2.
  - unfold o_okapi_unindex_doc, okapi_unindex_doc in *. rewrite (rel_has_doc _ _ _ _ _ Hr). destruct (has_doc (six s) d) eqn:Eh; cbn [negb] in *.
    + revert E. unfold sbind at 1 2, slift. destruct (item (docweight (six s)) d) as [w|] eqn:Ei; [|discriminate].
      unfold sbind at 1 2. rewrite <- (proj1 (proj2 (proj2 (r_same _ _ _ _ Hr)))) in Ei. unfold slift. rewrite Ei.
      destruct (change_doc_len (- w) s) as [s1 [[]|e]] eqn:E1; [|discriminate]. intros E.
      destruct (Hlen _ _ _ _ _ _ _ Hr E1) as (u1 & -> & Hr1).
      destruct (sim_unindex f32Z Z.eqb wc dc d u1 s1 s' tt Hr1 E Hd) as (u2 & E2 & Hr2). exists u2. split; [exact E2|].
      replace (has_doc (six s1) d) with true in Hr2 by (injection E1 as <-; symmetry; exact Eh). rewrite !andb_true_r. rewrite andb_false_r in *. exact Hr2.
    + injection E as <-. exists u. rewrite !andb_true_r. auto.
  - rewrite !andb_false_r. exact (sim_clear wc dc u s s' tt Hr E).
  - rewrite !andb_true_r. exact (sim_other pipeline wc dc o u s s' tt Hr E).
Qed.

Lemma cos_step_sim {F} {AF : Arith F} pipeline wc dc o u s s' : rel wc dc u s ->
  op_step pipeline (cos_index_doc (F := F) pipeline) base_unindex_doc o s = (s', Ok tt) -> docs_counted s' ->
  exists u', o_step pipeline (o_cos_index_doc pipeline) o_unindex_doc o u = (u', Ok tt) /\
    rel (wc && negb (step_adds s o)) (dc && negb (step_changes s o)) u' s'.
Proof.
  intros Hr E Hd. destruct o as [d t|d| |o]; cbn [op_step o_step step_adds step_changes] in *.
  - unfold sbind at 1 in E. destruct (cos_index_doc pipeline d t s) as [s1 [n|e]] eqn:E1; [|discriminate]. injection E as ->.
    unfold cos_index_doc, cos_index_doc_with in E1.
    destruct (sim_index f32 feqb cos_freqs pipeline (base_reindex_with f32 feqb cos_freqs) (o_reindex f32 feqb cos_freqs) wc dc d t) with (u := u) (s := s) (s' := s') (a := n) as (u1 & F1 & Hr1); try assumption.
    { intros wc0 dc0. apply sim_reindex. }
    exists u1. split; [|rewrite !negb_involutive; exact Hr1]. unfold sbind, o_cos_index_doc. rewrite F1. reflexivity.
  - rewrite andb_true_r. exact (sim_unindex f32 feqb wc dc d u s s' tt Hr E Hd).
  - rewrite !andb_false_r. exact (sim_clear wc dc u s s' tt Hr E).
  - rewrite !andb_true_r. exact (sim_other pipeline wc dc o u s s' tt Hr E).
Qed.

Lemma run_state {S} (r : S * res unit) : snd r = Ok tt -> r = (fst r, Ok tt).
Proof. destruct r. cbn. intros ->. reflexivity. Qed.

(** ** When the word counter is made *)
Section Track.
  Context {V : Type}.
  Variable rnd : V -> V.
  Variable veqb : V -> V -> bool.
  Variable freqs : list Z -> res (smap Z V * V).
  Variable pipeline : list elem.

  Definition still_same (u0 u : osys V) : Prop := forall wid, mem wid (o_wordinfo (o_ix u)) = mem wid (o_wordinfo (o_ix u0)).
  Definition missing (u : osys V) : Prop := o_wordCount (o_ix u) = Method.
  Record tk (O : Z -> bool) (u0 u : osys V) : Prop := mkTk {
    tk_del : forall wid, O wid = true -> mem wid (o_wordinfo (o_ix u)) = true -> mem wid (o_wordinfo (o_ix u0)) = true;
    tk_add : forall wid, O wid = false -> mem wid (o_wordinfo (o_ix u0)) = true -> mem wid (o_wordinfo (o_ix u)) = true;
    tk_to : missing u -> missing u0 /\ still_same u0 u;
    tk_from : missing u0 -> still_same u0 u -> missing u
  }.
  Definition track {A} O (m : sx (osys V) A) : Prop := forall u0 u u' a, tk O u0 u -> m u = (u', Ok a) -> tk O u0 u'.

  Lemma tk_start O u u' : o_wordinfo (o_ix u') = o_wordinfo (o_ix u) -> o_wordCount (o_ix u') = o_wordCount (o_ix u) -> tk O u u'.
  Proof. intros E1 E2. constructor; unfold missing, still_same; rewrite ?E1, ?E2; auto. Qed.
  Lemma tk_same O u0 u u' : tk O u0 u -> o_wordinfo (o_ix u') = o_wordinfo (o_ix u) -> o_wordCount (o_ix u') = o_wordCount (o_ix u) -> tk O u0 u'.
  Proof. intros [H1 H2 H3 H4] E1 E2. constructor; unfold missing, still_same in *; rewrite ?E1, ?E2; auto. Qed.
  Lemma tk_end O u0 u : tk O u0 u -> (missing u <-> missing u0 /\ still_same u0 u).
  Proof. intros [H1 H2 H3 H4]. split; [exact H3|intros [X Y]; exact (H4 X Y)]. Qed.

  Lemma track_ret {A} O (a : A) : track O (sret a).
  Proof. intros u0 u u' b H E. injection E as <- _. exact H. Qed.
  Lemma track_bind {A B} O (m : sx (osys V) A) (f : A -> sx (osys V) B) : track O m -> (forall a, track O (f a)) -> track O (sbind m f).
  Proof.
    intros H1 H2 u0 u u' b H E. unfold sbind in E. destruct (m u) as [u1 [a|e]] eqn:E1; [|discriminate].
    exact (H2 a _ _ _ _ (H1 _ _ _ _ H E1) E).
  Qed.
  Lemma track_lift {A} O (f : osys V -> res A) : track O (slift f).
  Proof. intros u0 u u' b H E. injection E as <- _. exact H. Qed.
  Lemma track_iter {A} O (f : A -> sx (osys V) unit) l : (forall x, In x l -> track O (f x)) -> track O (siter f l).
  Proof.
    intros H. induction l as [|x l IH]; cbn [siter]; [apply track_ret|].
    apply track_bind; [apply H; left; reflexivity|intros _]. apply IH. intros y Hy. apply H. right. exact Hy.
  Qed.
  Lemma track_on O (f : oix V -> oix V) : (forall ix, o_wordinfo (f ix) = o_wordinfo ix /\ o_wordCount (f ix) = o_wordCount ix) -> track O (on_oix f).
  Proof. intros Hf u0 u u' b H E. injection E as <- _. destruct (Hf (o_ix u)) as [H0 H1]. apply (tk_same _ _ _ _ H); [exact H0|exact H1]. Qed.

  Lemma track_add O wid f d : O wid = false -> track O (on_oix (o_add_wordinfo rnd wid f d)).
  Proof.
    intros HO u0 u u' a [H1 H2 H3 H4] E. injection E as <- _. unfold o_add_wordinfo.
    destruct (get (o_wordinfo (o_ix u)) wid) as [p|] eqn:Eg.
    - assert (Hm : forall w v, mem w (put wid v (o_wordinfo (o_ix u))) = mem w (o_wordinfo (o_ix u))).
      { intros w v. unfold mem. rewrite get_put. destruct (eqb w wid) eqn:Ew; [|reflexivity]. apply eqb_eq in Ew. subst w. rewrite Eg. reflexivity. }
      constructor; unfold missing, still_same in *; cbn [o_ix o_wordinfo o_wordCount oset_wordinfo].
      + intros w. rewrite Hm. apply H1.
      + intros w. rewrite Hm. apply H2.
      + intros X. destruct (H3 X) as [Y Z]. split; [exact Y|]. intros w. rewrite Hm. apply Z.
      + intros X Y. apply H4; [exact X|]. intros w. rewrite <- (Y w), Hm. reflexivity.
    - constructor; unfold missing, still_same in *; cbn [o_ix o_wordinfo o_wordCount oset_wordinfo].
      + intros w Hw. destruct (Z.eq_dec w wid) as [->|N]; [congruence|]. unfold mem. rewrite get_put_other by exact N. apply H1. exact Hw.
      + intros w Hw Hm. destruct (Z.eq_dec w wid) as [->|N]; unfold mem; [rewrite get_put_same; reflexivity|].
        rewrite get_put_other by exact N. apply H2; assumption.
      + intros X. destruct (o_wordCount (o_ix u)); discriminate.
      + intros X Y. exfalso. pose proof (Y wid) as Yw. unfold mem at 1 in Yw. rewrite get_put_same in Yw.
        symmetry in Yw. apply (H2 wid HO) in Yw. unfold mem in Yw. rewrite Eg in Yw. discriminate.
  Qed.
  Lemma track_del O wid d : O wid = true -> track O (o_del_wordinfo wid d).
  Proof.
    intros HO u0 u u' a [H1 H2 H3 H4] E. unfold o_del_wordinfo, sbind, slift, item in E.
    destruct (get (o_wordinfo (o_ix u)) wid) as [p|] eqn:Eg; [|discriminate]. destruct (get (p_map p) d) as [v0|]; [|discriminate].
    cbn [p_map] in E. assert (Hu : mem wid (o_wordinfo (o_ix u)) = true) by (unfold mem; rewrite Eg; reflexivity).
    destruct (is_empty (del d (p_map p))); injection E as <- _.
    - constructor; unfold missing, still_same in *; cbn [o_ix o_wordinfo o_wordCount oset_wordinfo].
      + intros w Hw Hm. apply H1; [exact Hw|]. unfold mem in *. rewrite get_del in Hm. destruct (eqb w wid); [discriminate|exact Hm].
      + intros w Hw Hm. destruct (Z.eq_dec w wid) as [->|N]; [congruence|]. unfold mem. rewrite get_del.
        destruct (eqb w wid) eqn:Ew; [apply eqb_eq in Ew; contradiction|]. apply H2; assumption.
      + intros X. destruct (o_wordCount (o_ix u)); discriminate.
      + intros X Y. exfalso. pose proof (Y wid) as Yw. rewrite (H1 wid HO Hu) in Yw. unfold mem in Yw. rewrite get_del in Yw.
        replace (eqb wid wid) with true in Yw by (symmetry; apply eqb_eq; reflexivity). discriminate.
    - assert (Hm : forall w v, mem w (put wid v (o_wordinfo (o_ix u))) = mem w (o_wordinfo (o_ix u))).
      { intros w v. unfold mem. rewrite get_put. destruct (eqb w wid) eqn:Ew; [|reflexivity]. apply eqb_eq in Ew. subst w. rewrite Eg. reflexivity. }
      constructor; unfold missing, still_same in *; cbn [o_ix o_wordinfo o_wordCount oset_wordinfo].
      + intros w. rewrite Hm. apply H1.
      + intros w. rewrite Hm. apply H2.
      + intros X. destruct (H3 X) as [Y Z]. split; [exact Y|]. intros w. rewrite Hm. apply Z.
      + intros X Y. apply H4; [exact X|]. intros w. rewrite <- (Y w), Hm. reflexivity.
  Qed.

  Definition exactly (u u' : osys V) : Prop := missing u' <-> missing u /\ still_same u u'.
  Lemma exactly_same u u' : o_wordinfo (o_ix u') = o_wordinfo (o_ix u) -> o_wordCount (o_ix u') = o_wordCount (o_ix u) -> exactly u u'.
  Proof. intros E1 E2. apply (tk_end (fun _ => true)), tk_start; assumption. Qed.
  Lemma reindex_exact d t u u' n : o_reindex rnd veqb freqs d (o_source pipeline t) u = (u', Ok n) -> exactly u u'.
  Proof.
    intros E. unfold o_reindex in E. unfold sbind at 1, slift at 1 in E. destruct (o_get_words (o_ix u) d) as [ow|]; [|discriminate].
    unfold sbind at 1, slift at 1 in E. destruct (freqs ow) as [[ow2w odw]|]; [|discriminate].
    unfold sbind at 1, o_source at 1 in E. destruct (sourceToWordIds pipeline t (lex_value (o_lx u))) as [lx [nw|]]; [|discriminate].
    unfold sbind at 1, slift at 1 in E. destruct (freqs nw) as [[nw2w ndw]|]; [|discriminate]. cbv beta iota zeta in E.
    set (old := set_of_list (keys ow2w)) in E. set (new := set_of_list (keys nw2w)) in E.
    set (O := fun wid => mem wid (mdiff old (sinter old new))).
    assert (Ho : forall wid, In wid (selems (mdiff old (sinter old new))) -> O wid = true).
    { intros wid H. apply keys_mem. exact H. }
    assert (Hi : forall wid, In wid (selems (sinter old new)) -> O wid = false).
    { intros wid H. apply keys_mem in H. unfold O. apply mem_false. rewrite get_mdiff. rewrite H. reflexivity. }
    assert (Hn : forall wid, In wid (selems (mdiff new (sinter old new))) -> O wid = false).
    { intros wid H. apply keys_mem in H. unfold O. rewrite mem_mdiff, mem_sinter in *. destruct (mem wid old), (mem wid new); try reflexivity; discriminate. }
    eapply (tk_end O). revert E. clearbody O old new.
    match goal with |- ?m ?u1 = _ -> _ => intros E; refine ((_ : track O m) u u1 u' n _ E); [|apply tk_start; reflexivity] end.
    apply track_bind; [apply track_iter; intros wid H; apply track_del, Ho, H|]. intros _.
    apply track_bind; [apply track_iter; intros wid H; apply track_bind; [apply track_lift|]; intros w; apply track_add, Hn, H|]. intros _.
    apply track_bind.
    { apply track_iter; intros wid H. apply track_bind; [apply track_lift|]. intros x. apply track_bind; [apply track_lift|]. intros y.
      destruct (negb (veqb y x)); [apply track_add, Hi, H|apply track_ret]. }
    intros _. apply track_bind; [apply track_on; split; reflexivity|]. intros _. apply track_bind; [apply track_lift|]. intros code.
    apply track_bind; [apply track_on; split; reflexivity|]. intros _. apply track_ret.
  Qed.
  Lemma unindex_exact d u u' : o_unindex_doc d u = (u', Ok tt) -> exactly u u'.
  Proof.
    unfold o_unindex_doc. destruct (o_has_doc (o_ix u) d); cbn [negb]; [|intros E; injection E as <-; apply exactly_same; reflexivity].
    intros E. eapply (tk_end (fun _ => true)).
    match type of E with ?m ?u1 = _ => refine ((_ : track (fun _ => true) m) u u1 u' tt _ E); [|apply tk_start; reflexivity] end.
    apply track_bind; [apply track_lift|]. intros wids. apply track_bind; [apply track_iter; intros wid _; apply track_del; reflexivity|]. intros _.
    apply track_bind; [apply track_bind; [apply track_lift|]; intros _; apply track_on; split; reflexivity|]. intros _.
    apply track_bind; [apply track_bind; [apply track_lift|]; intros _; apply track_on; split; reflexivity|]. intros _.
    apply track_on; split; reflexivity.
  Qed.
  Lemma exactly_pre u u1 u' : o_wordinfo (o_ix u1) = o_wordinfo (o_ix u) -> o_wordCount (o_ix u1) = o_wordCount (o_ix u) -> exactly u1 u' -> exactly u u'.
  Proof. unfold exactly, missing, still_same. intros E1 E2. rewrite E1, E2. auto. Qed.
  Lemma exactly_post u u1 u' : o_wordinfo (o_ix u') = o_wordinfo (o_ix u1) -> o_wordCount (o_ix u') = o_wordCount (o_ix u1) -> exactly u u1 -> exactly u u'.
  Proof. unfold exactly, missing, still_same. intros E1 E2. rewrite E1, E2. auto. Qed.
End Track.

Definition o_adds {V} (u : osys V) (o : top) : bool :=
  match o with TIndex d _ => negb (o_has_doc (o_ix u) d) | TClear => true | _ => false end.
Lemma okapi_exact pipeline o u u' : o_step pipeline (o_okapi_index_doc pipeline) o_okapi_unindex_doc o u = (u', Ok tt) ->
  o_adds u o = false -> exactly u u'.
Proof.
  intros E Ha. destruct o as [d t|d| |o]; cbn [o_step o_adds] in *.
  - apply negb_false_iff in Ha. unfold sbind at 1 in E. destruct (o_okapi_index_doc pipeline d t u) as [u1 [n|]] eqn:E1; [|discriminate]. injection E as ->.
    unfold o_okapi_index_doc, o_index_doc in E1. unfold sbind at 1 in E1. rewrite Ha in E1. unfold o_okapi_reindex in E1.
    unfold sbind at 1, slift at 1 in E1. destruct (item (o_docweight (o_ix u)) d) as [w|]; [|discriminate].
    unfold sbind at 1 in E1. destruct (o_change_doc_len (- w) u) as [u2 [[]|]] eqn:E2; [|discriminate].
    destruct (o_reindex f32Z Z.eqb okapi_freqs d (o_source pipeline t) u2) as [u3 [m|]] eqn:E3; [|discriminate].
    unfold sbind in E1. injection E1 as <- _. injection E2 as <-.
    eapply exactly_post; [| |eapply exactly_pre; [| |exact (reindex_exact _ _ _ _ _ _ _ _ _ E3)]]; reflexivity.
  - unfold o_okapi_unindex_doc in E. destruct (o_has_doc (o_ix u) d); cbn [negb] in E; [|injection E as <-; apply exactly_same; reflexivity].
    unfold sbind at 1, slift at 1 in E. destruct (item (o_docweight (o_ix u)) d) as [w|]; [|discriminate].
    unfold sbind at 1 in E. destruct (o_change_doc_len (- w) u) as [u2 [[]|]] eqn:E2; [|discriminate]. injection E2 as <-.
    eapply exactly_pre; [| |exact (unindex_exact _ _ _ E)]; reflexivity.
  - discriminate.
  - injection E as <-. apply exactly_same; reflexivity.
Qed.
Lemma cos_exact {F} {AF : Arith F} pipeline o (u u' : osys F) : o_step pipeline (o_cos_index_doc pipeline) o_unindex_doc o u = (u', Ok tt) ->
  o_adds u o = false -> exactly u u'.
Proof.
  intros E Ha. destruct o as [d t|d| |o]; cbn [o_step o_adds] in *.
  - apply negb_false_iff in Ha. unfold sbind at 1 in E. destruct (o_cos_index_doc pipeline d t u) as [u1 [n|]] eqn:E1; [|discriminate]. injection E as ->.
    unfold o_cos_index_doc, o_index_doc in E1. rewrite Ha in E1. exact (reindex_exact _ _ _ _ _ _ _ _ _ E1).
  - exact (unindex_exact _ _ _ E).
  - discriminate.
  - injection E as <-. apply exactly_same; reflexivity.
Qed.

Lemma contains_In ws w : contains ws w = true <-> In w ws.
Proof. unfold contains. rewrite existsb_exists. split; [intros (x & Hx & E); apply eqb_eq in E; subst; exact Hx|intros H; exists w; split; [exact H|apply eqb_eq; reflexivity]]. Qed.
Lemma same_words_spec D D' : same_words D D' = true <-> (forall w, In w (vocabulary D) <-> In w (vocabulary D')).
Proof.
  unfold same_words. rewrite andb_true_iff, !forallb_forall. split.
  - intros [H1 H2] w. split; intros H; [apply contains_In, H1, H|apply contains_In, H2, H].
  - intros H. split; intros w Hw; apply contains_In, H, Hw.
Qed.
Section RunExact.
  Context {V : Type}.
  Variable pipeline : list elem.
  Variable ostep : top -> sx (osys V) unit.
  Variable st : list top -> sys V.
  Hypothesis Hsim : forall o h0 wc dc u, history_ok pipeline (h0 ++ [o]) -> rel wc dc u (st h0) ->
    exists u', siter ostep [o] u = (u', Ok tt) /\
      rel (wc && negb (document_added pipeline (docs_of pipeline h0) [o])) (dc && negb (documents_change pipeline (docs_of pipeline h0) [o]))
        u' (st (h0 ++ [o])).
  Hypothesis Hexact : forall o u u', ostep o u = (u', Ok tt) -> o_adds u o = false -> exactly u u'.
  Hypothesis Hdocs : forall h d, history_ok pipeline h -> has_doc (six (st h)) d = mem d (docs_of pipeline h).
  Hypothesis Hkeys : forall h i, history_ok pipeline h ->
    (mem i (wordinfo (six (st h))) = true <-> exists w, In w (vocabulary (docs_of pipeline h)) /\ get_wid (slx (st h)) w = i).
  Hypothesis Hids : forall h o w, history_ok pipeline (h ++ [o]) -> In w (vocabulary (docs_of pipeline h)) ->
    get_wid (slx (st (h ++ [o]))) w = get_wid (slx (st h)) w.
  Hypothesis Hinj : forall h w w', history_ok pipeline h -> In w (vocabulary (docs_of pipeline h)) ->
    get_wid (slx (st h)) w' = get_wid (slx (st h)) w -> w' = w.

  Lemma vocabulary_step h o : history_ok pipeline (h ++ [o]) ->
    ((forall i, mem i (wordinfo (six (st (h ++ [o])))) = mem i (wordinfo (six (st h)))) <->
     same_words (docs_of pipeline h) (docs_of pipeline (h ++ [o])) = true).
  Proof.
    intros Ho. pose proof (history_prefix _ _ _ Ho) as H0. rewrite same_words_spec. split.
    - intros H w. split; intros Hw.
      + assert (Hm : mem (get_wid (slx (st h)) w) (wordinfo (six (st (h ++ [o])))) = true) by (rewrite H; apply (Hkeys _ _ H0); eauto).
        apply (Hkeys _ _ Ho) in Hm as (w' & Hw' & E). rewrite <- (Hids _ _ _ Ho Hw) in E. symmetry in E. rewrite (Hinj _ _ _ Ho Hw' E). exact Hw'.
      + assert (Hm : mem (get_wid (slx (st (h ++ [o]))) w) (wordinfo (six (st h))) = true) by (rewrite <- H; apply (Hkeys _ _ Ho); eauto).
        apply (Hkeys _ _ H0) in Hm as (w' & Hw' & E). rewrite <- (Hids _ _ _ Ho Hw') in E. rewrite <- (Hinj _ _ _ Ho Hw E). exact Hw'.
    - intros H i. apply bool_eq_iff. rewrite (Hkeys _ _ Ho), (Hkeys _ _ H0). split; intros (w & Hw & E); exists w.
      + apply H in Hw. rewrite <- (Hids _ _ _ Ho Hw). auto.
      + rewrite (Hids _ _ _ Ho Hw). split; [apply H, Hw|exact E].
  Qed.
  Lemma step_exact o h0 wc dc u u' : history_ok pipeline (h0 ++ [o]) -> rel wc dc u (st h0) -> rel (wc && negb (document_added pipeline (docs_of pipeline h0) [o])) (dc && negb (documents_change pipeline (docs_of pipeline h0) [o]))
        u' (st (h0 ++ [o])) -> ostep o u = (u', Ok tt) ->
    (missing u' <-> missing u /\ words_change pipeline (docs_of pipeline h0) [o] = false).
  Proof.
    intros Ho Hr Hr' E. pose proof (history_prefix _ _ _ Ho) as H0. pose proof (vocabulary_step _ _ Ho) as Hv.
    assert (Hd : docs_step pipeline (docs_of pipeline h0) o = docs_of pipeline (h0 ++ [o])) by (rewrite docs_of_app; reflexivity).
    assert (Ha : o_adds u o = document_added pipeline (docs_of pipeline h0) [o]).
    { cbn [document_added]. rewrite orb_false_r. destruct o; cbn [o_adds]; try reflexivity. rewrite (rel_has_doc _ _ _ _ _ Hr), (Hdocs _ _ H0). reflexivity. }
    destruct (o_adds u o) eqn:Eo.
    - rewrite <- Ha in Hr'. cbn [negb] in Hr'. rewrite andb_false_r in Hr'. unfold missing.
      destruct (r_wc _ _ _ _ Hr') as [-> |[X _]]; [|discriminate]. split; [discriminate|]. intros [_ Hw]. exfalso.
      cbn [document_added words_change] in *. rewrite orb_false_r in *. destruct o; try discriminate. rewrite <- Ha in Hw. discriminate.
    - pose proof (Hexact _ _ _ E Eo) as Hx. unfold exactly in Hx. rewrite Hx. unfold still_same.
      rewrite (proj1 (proj2 (r_same _ _ _ _ Hr))), (proj1 (proj2 (r_same _ _ _ _ Hr'))), Hv.
      cbn [document_added words_change] in *. rewrite orb_false_r in *. rewrite Hd.
      destruct o; try discriminate; cbn [docs_step] in Hd.
      + rewrite <- Ha. cbn [orb]. rewrite negb_false_iff. reflexivity.
      + rewrite negb_false_iff. reflexivity.
      + rewrite <- Hd. split; intros [X _]; (split; [exact X|]); [reflexivity|]. apply same_words_spec. reflexivity.
  Qed.
  Lemma run_exact h : forall h0 wc dc u u', history_ok pipeline (h0 ++ h) -> rel wc dc u (st h0) -> siter ostep h u = (u', Ok tt) ->
    (missing u' <-> missing u /\ words_change pipeline (docs_of pipeline h0) h = false).
  Proof.
    induction h as [|o h IH]; intros h0 wc dc u u' Hh Hr E.
    - injection E as <-. cbn. tauto.
    - replace (h0 ++ o :: h) with ((h0 ++ [o]) ++ h) in * by (rewrite <- app_assoc; reflexivity).
      pose proof (history_prefix _ _ _ Hh) as Ho. destruct (Hsim _ _ _ _ _ Ho Hr) as (u1 & E1 & Hr1).
      cbn [siter] in E, E1. unfold sbind in E, E1. destruct (ostep o u) as [u2 [[]|]] eqn:E2; [|discriminate]. injection E1 as ->.
      rewrite (IH _ _ _ _ _ Hh Hr1 E), (step_exact _ _ _ _ _ _ Ho Hr Hr1 E2).
      replace (docs_of pipeline (h0 ++ [o])) with (docs_step pipeline (docs_of pipeline h0) o) by (rewrite docs_of_app; reflexivity).
      cbn [words_change]. rewrite !orb_false_r, !orb_false_iff. tauto.
  Qed.
End RunExact.

Lemma lex_hist_grows pipeline h o : history_ok pipeline (h ++ [o]) ->
  grows (lex_run pipeline (lex_hist h)) (lex_run pipeline (lex_hist (h ++ [o]))).
Proof.
  intros Ho. pose proof (history_prefix _ _ _ Ho) as [Hc _]. destruct Ho as [Hc' _]. rewrite lex_hist_app in *. unfold lex_run. rewrite fold_left_app.
  apply lex_fold_ok; [exact (lex_run_bij pipeline _ Hc)|]. intros n Hn. apply Hc'. apply in_or_app. right. exact Hn.
Qed.
Section StoredExact.
  Context {V : Type}.
  Variable rnd : V -> V.
  Variable fr : list Z -> smap Z V * V.
  Hypothesis fr_keys : forall wids w, mem w (fst (fr wids)) = true <-> In w wids.
  Variable pipeline : list elem.
  Variable step : top -> sx (sys V) unit.
  Variable ostep : top -> sx (osys V) unit.
  Variable st : list top -> sys V.
  Hypothesis Hstep : forall wc dc o u s s', rel wc dc u s -> step o s = (s', Ok tt) -> docs_counted s' ->
    exists u', ostep o u = (u', Ok tt) /\ rel (wc && negb (step_adds s o)) (dc && negb (step_changes s o)) u' s'.
  Hypothesis Hrun : forall h, history_ok pipeline h -> siter step h (mkSys lex_new ix_new) = (st h, Ok tt).
  Hypothesis Hinv : forall h, history_ok pipeline h -> sysinv rnd fr (st h) (docs_of pipeline h).
  Hypothesis Hlex : forall h, history_ok pipeline h -> slx (st h) = lex_run pipeline (lex_hist h).
  Hypothesis Hcounter : forall s n, step (TOther (LCounter n)) s = (mkSys (mkLex (lwids (slx s)) (lwords (slx s)) n) (six s), Ok tt).
  Hypothesis Hexact : forall o u u', ostep o u = (u', Ok tt) -> o_adds u o = false -> exactly u u'.

  Lemma inv_count h : history_ok pipeline h -> docs_counted (st h).
  Proof. intros H. unfold docs_counted. rewrite (docweight_size rnd fr _ _ (Hinv h H)). exact (proj1 (counts_D rnd fr fr_keys _ _ (Hinv h H))). Qed.
  Lemma inv_docs h d : history_ok pipeline h -> has_doc (six (st h)) d = mem d (docs_of pipeline h).
  Proof. intros H. exact (has_doc_D _ _ _ _ _ (Hinv h H)). Qed.
  Lemma inv_size h : history_ok pipeline h -> wordCount (six (st h)) = Zsize (wordinfo (six (st h))).
  Proof. intros H. destruct (Hinv h H) as (_ & _ & Hi). exact (proj2 (iv_info _ _ _ _ Hi)). Qed.
  Lemma inv_known h w : history_ok pipeline h -> In w (vocabulary (docs_of pipeline h)) -> exists i, get (lwids (slx (st h))) w = Some i.
  Proof. intros H Hw. destruct (Hinv h H) as (_ & H2 & _). apply vocabulary_In in Hw as (d & ws & Hd & Hw). exact (H2 d ws Hd w Hw). Qed.

  Lemma stored_exact a h1 h2 : history_ok pipeline (restored pipeline a h1 h2) ->
    exists u, siter ostep h2 (stored_by a (st h1)) = (u, Ok tt) /\
      rel (no_wordCount a && negb (document_added pipeline (docs_of pipeline h1) h2))
          (no_documentCount a && negb (documents_change pipeline (docs_of pipeline h1) h2)) u (st (restored pipeline a h1 h2)) /\
      (missing u <-> no_wordCount a = true /\ words_change pipeline (docs_of pipeline h1) h2 = false).
  Proof.
    intros H. destruct (stored_sim pipeline step ostep st Hstep Hrun inv_count inv_docs Hlex inv_size Hcounter a h1 h2 H) as (u & E & Hr).
    exists u. split; [exact E|]. split; [exact Hr|].
    pose proof (rel_stored pipeline step st Hrun Hlex inv_size Hcounter a h1 h2 H) as Hs. unfold restored in H. rewrite app_assoc in H.
    pose proof (run_exact pipeline ostep st) as X.
    replace (docs_of pipeline h1) with (docs_of pipeline (h1 ++ (if no_lexCount a then [TOther (LCounter (Zlen (lex_words (lex_run pipeline (lex_hist h1)))))] else []))) by (rewrite docs_of_app; destruct (no_lexCount a); reflexivity).
    rewrite (X) with (h0 := h1 ++ (if no_lexCount a then [TOther (LCounter (Zlen (lex_words (lex_run pipeline (lex_hist h1)))))] else [])) (wc := no_wordCount a) (dc := no_documentCount a) (u := stored_by a (st h1)); try eassumption; clear X.
    - unfold missing, stored_by. cbn [o_ix o_wordCount]. destruct (no_wordCount a); split; intros [X Y]; auto; discriminate.
    - intros o h0 wc dc u0 Ho Hr0. exact (run_sim pipeline step ostep st Hstep Hrun inv_count inv_docs [o] h0 wc dc u0 Ho Hr0).
    - intros. apply inv_docs. assumption.
    - intros h i Hh. pose proof (wordinfo_keys rnd fr fr_keys _ _ (Hinv h Hh)) as Hp. rewrite <- keys_mem. split.
      + intros Hi. apply (Permutation_in _ Hp), in_map_iff in Hi as (w & E1 & Hw). eauto.
      + intros (w & Hw & E1). apply (Permutation_in _ (Permutation_sym Hp)), in_map_iff. eauto.
    - intros h o w Ho Hw. pose proof (history_prefix _ _ _ Ho) as Hh. destruct (inv_known h w Hh Hw) as [i Hi].
      apply (get_wid_grows _ _ _ i); [|exact Hi]. rewrite (Hlex _ Hh), (Hlex _ Ho). apply lex_hist_grows. exact Ho.
    - intros h w w' Hh Hw E1. destruct (inv_known h w Hh Hw) as [i Hi]. exact (get_wid_inj _ _ _ _ (proj1 (Hinv h Hh)) Hi E1).
  Qed.
End StoredExact.
Lemma okapi_upgrade pipeline a h1 h2 : history_ok pipeline (restored pipeline a h1 h2) ->
  exists u, o_okapi_run pipeline h2 (stored_by a (okapi_state pipeline h1)) = (u, Ok tt) /\
    rel (no_wordCount a && negb (document_added pipeline (docs_of pipeline h1) h2))
        (no_documentCount a && negb (documents_change pipeline (docs_of pipeline h1) h2)) u (okapi_state pipeline (restored pipeline a h1 h2)) /\
    (missing u <-> no_wordCount a = true /\ words_change pipeline (docs_of pipeline h1) h2 = false).
Proof.
  intros H. apply (stored_exact f32Z okapi_fr okapi_keys pipeline (op_step pipeline (okapi_index_doc pipeline) okapi_unindex_doc)); try exact H.
  - intros. eapply okapi_step_sim; eassumption.
  - intros h Hh. exact (run_state _ (okapi_no_raise pipeline h Hh)).
  - intros h Hh. exact (proj1 (proj2 (proj2 (okapi_state_ok pipeline h Hh)))).
  - intros h Hh. exact (proj1 (proj2 (okapi_state_ok pipeline h Hh))).
  - reflexivity.
  - apply okapi_exact.
Qed.
Lemma cos_upgrade {F} {AF : Arith F} {SF : SafeArith F} {EF : SoundEq F} pipeline a h1 h2 : history_ok pipeline (restored pipeline a h1 h2) ->
  exists u, o_cos_run pipeline h2 (stored_by a (cos_state (F := F) pipeline h1)) = (u, Ok tt) /\
    rel (no_wordCount a && negb (document_added pipeline (docs_of pipeline h1) h2))
        (no_documentCount a && negb (documents_change pipeline (docs_of pipeline h1) h2)) u (cos_state pipeline (restored pipeline a h1 h2)) /\
    (missing u <-> no_wordCount a = true /\ words_change pipeline (docs_of pipeline h1) h2 = false).
Proof.
  intros H. apply (stored_exact f32 cos_fr cos_keys pipeline (op_step pipeline (cos_index_doc pipeline) base_unindex_doc)); try exact H.
  - intros. eapply cos_step_sim; eassumption.
  - intros h Hh. exact (run_state _ (cos_no_raise pipeline h Hh)).
  - intros h Hh. exact (proj2 (proj2 (cos_state_ok (F := F) pipeline h Hh))).
  - intros h Hh. exact (proj1 (proj2 (cos_state_ok (F := F) pipeline h Hh))).
  - reflexivity.
  - apply cos_exact.
Qed.

(** ** Searches *)
Section SameMaps.
  Context {V F : Type} {AF : Arith F}.
  Variable pipeline : list elem.
  Variables sw1 sw2 : bindex V -> list Z -> res (list (smap Z F * F)).
  Variables a b : sys V.
  Hypothesis same_lx : slx a = slx b.
  Hypothesis same_info : wordinfo (six a) = wordinfo (six b).
  Hypothesis same_words : docwords (six a) = docwords (six b).
  Lemma maps_oov wids : remove_oov (six a) wids = remove_oov (six b) wids.
  Proof. unfold remove_oov. rewrite same_info. reflexivity. Qed.
  Lemma maps_loop code hits : forall m : smap Z F, phrase_loop (six a) code hits m = phrase_loop (six b) code hits m.
  Proof.
    induction hits as [|[d v] hits IH]; intros m; [reflexivity|]. cbn [phrase_loop]. rewrite same_words.
    destruct (item (docwords (six b)) d); [|reflexivity]. cbn [bind]. apply IH.
  Qed.
  Section Equal.
    Hypothesis same_sw : forall wids, sw1 (six a) wids = sw2 (six b) wids.
    Lemma maps_search t : search pipeline sw1 a t = search pipeline sw2 b t.
    Proof. unfold search. rewrite same_lx. destruct (termToWordIds _ _ _); [reflexivity|]. rewrite maps_oov, same_sw. reflexivity. Qed.
    Lemma maps_glob p : search_glob sw1 a p = search_glob sw2 b p.
    Proof. unfold search_glob. rewrite same_lx. destruct (globToWordIds p (slx b)); [|reflexivity]. cbn [bind]. rewrite maps_oov, same_sw. reflexivity. Qed.
    Lemma maps_phrase t : search_phrase pipeline sw1 a t = search_phrase pipeline sw2 b t.
    Proof.
      unfold search_phrase. rewrite same_lx, maps_oov, same_sw. destruct (negb _); [reflexivity|]. destruct (sw2 (six b) _); [|reflexivity]. cbn [bind].
      destruct (mass_weightedIntersection _) as [hits|]; [|reflexivity]. cbn [bind]. destruct (is_empty hits); [reflexivity|].
      destruct (encode _); [|reflexivity]. cbn [bind]. apply maps_loop.
    Qed.
    Lemma maps_apply (qw1 qw2 : sys V -> list ltext -> res F) space upper qpipeline q start count : (forall ts, qw1 a ts = qw2 b ts) ->
      apply space upper qpipeline pipeline sw1 qw1 a q start count = apply space upper qpipeline pipeline sw2 qw2 b q start count.
    Proof.
      intros Hq. unfold apply. destruct (parseQuery _ _ _ _ q) as [[tree ?]|]; [|reflexivity]. cbn [pbind].
      assert (E : execute pipeline sw1 a tree = execute pipeline sw2 b tree).
      { unfold execute. apply execute_ext. intros x _. destruct x; cbn [run_leaf]; try reflexivity.
        - apply maps_search.
        - rewrite maps_phrase. reflexivity.
        - rewrite maps_glob. reflexivity. }
      rewrite E. destruct (execute _ _ b tree) as [[r|]|]; try reflexivity. destruct (is_empty r); [reflexivity|].
      unfold normalise. rewrite Hq. reflexivity.
    Qed.
  End Equal.
  (** searches that fail instead *)
  Section Fail.
    Variable e : exn.
    Hypothesis fail_sw : forall wids, sw1 (six a) wids = match wids with [] => sw2 (six b) wids | _ => Raise e end.
    Lemma fail_search t : search pipeline sw1 a t =
      match remove_oov (six b) (termToWordIds pipeline t (slx b)) with [] => search pipeline sw2 b t | _ => Raise e end.
    Proof.
      unfold search. rewrite same_lx. destruct (termToWordIds _ _ _) as [|i l] eqn:E; [reflexivity|]. rewrite maps_oov, fail_sw.
      destruct (remove_oov (six b) (i :: l)); reflexivity.
    Qed.
    Lemma fail_glob p : search_glob sw1 a p = search_glob sw2 b p \/ search_glob sw1 a p = Raise e.
    Proof.
      unfold search_glob. rewrite same_lx. destruct (globToWordIds p (slx b)) as [wids|]; [|auto]. cbn [bind]. rewrite maps_oov, fail_sw.
      destruct (remove_oov (six b) wids); auto.
    Qed.
    Lemma fail_phrase t : search_phrase pipeline sw1 a t = search_phrase pipeline sw2 b t \/ search_phrase pipeline sw1 a t = Raise e.
    Proof.
      unfold search_phrase. rewrite same_lx, maps_oov, fail_sw. destruct (negb _); [auto|]. destruct (termToWordIds _ _ _) as [|i l]; [|auto].
      left. destruct (sw2 (six b) _); [|reflexivity]. cbn [bind].
      destruct (mass_weightedIntersection _) as [hits|]; [|reflexivity]. cbn [bind]. destruct (is_empty hits); [reflexivity|].
      destruct (encode _); [|reflexivity]. cbn [bind]. apply maps_loop.
    Qed.
  End Fail.
End SameMaps.

Lemma rel_maps {V} wc dc (u : osys V) s : rel wc dc u s ->
  slx (as_sys u) = slx s /\ wordinfo (six (as_sys u)) = wordinfo (six s) /\ docwords (six (as_sys u)) = docwords (six s) /\
  docweight (six (as_sys u)) = docweight (six s).
Proof. intros [(H1 & H2 & H3 & H4 & H5) _ _ _]. cbn. auto. Qed.

Lemma okapi_sw_same {F} {AF : Arith F} (K1 B : F) sw wc u s wids : okapi_version K1 B sw -> rel wc false u s ->
  o_okapi_search_wids sw u (six (as_sys u)) wids = sw (six s) wids.
Proof.
  intros Hv [(H1 & H2 & H3 & H4 & H5) H6 H7 H8]. unfold o_okapi_search_wids. rewrite H7. cbn [counted bind].
  transitivity (sw (six (as_sys u)) wids); [destruct wids; reflexivity|].
  destruct Hv as [-> | ->]; unfold python_search_wids, c_search_wids, mean_doc_len; cbn [as_sys six as_new totaldoclen documentCount];
    rewrite H5, H7; cbn [count_or_0]; (destruct wids as [|i wids]; [reflexivity|]); (destruct (py_div _ _); [|reflexivity]); cbn [bind];
    apply mapM_ext; intros j; unfold py_search_wid, c_search_wid; cbn [as_sys six as_new wordinfo docweight documentCount]; rewrite H2, H3, H7; reflexivity.
Qed.
Lemma okapi_sw_fail {F} {AF : Arith F} (K1 B : F) sw wc u s wids : okapi_version K1 B sw -> rel wc true u s ->
  o_okapi_search_wids sw u (six (as_sys u)) wids = match wids with [] => sw (six s) wids | _ => Raise NotImplementedError end.
Proof.
  intros Hv [_ _ H7 _]. unfold o_okapi_search_wids. rewrite H7. cbn [counted bind]. destruct wids; [|reflexivity].
  destruct Hv as [-> | ->]; reflexivity.
Qed.
Lemma okapi_qw_same {F} {AF : Arith F} pipeline (K1 : F) wc dc u s ts : rel wc dc u s ->
  okapi_query_weight pipeline K1 (as_sys u) ts = okapi_query_weight pipeline K1 s ts.
Proof.
  intros H. destruct (rel_maps _ _ _ _ H) as (H1 & H2 & H3 & H4). unfold okapi_query_weight. rewrite H1, H4, (maps_oov _ _ H2), H2. reflexivity.
Qed.
Lemma cos_sw_same {F} {AF : Arith F} wc dc (u : osys F) s wids : rel wc dc u s ->
  cos_search_wids (six (as_sys u)) wids = cos_search_wids (six s) wids.
Proof.
  intros H. destruct (rel_maps _ _ _ _ H) as (H1 & H2 & H3 & H4). unfold cos_search_wids. apply mapM_ext. intros j. unfold cos_search_wid.
  rewrite H2, H4. reflexivity.
Qed.
Lemma cos_qw_same {F} {AF : Arith F} pipeline wc dc (u : osys F) s ts : rel wc dc u s ->
  cos_query_weight pipeline (as_sys u) ts = cos_query_weight pipeline s ts.
Proof.
  intros H. destruct (rel_maps _ _ _ _ H) as (H1 & H2 & H3 & H4). unfold cos_query_weight. rewrite H1, H4, (maps_oov _ _ H2), H2. reflexivity.
Qed.

(** ** The theorems *)
Lemma rel_counts {V} pipeline a h1 h2 (u : osys V) s :
  rel (no_wordCount a && negb (document_added pipeline (docs_of pipeline h1) h2))
      (no_documentCount a && negb (documents_change pipeline (docs_of pipeline h1) h2)) u s ->
  (missing u <-> no_wordCount a = true /\ words_change pipeline (docs_of pipeline h1) h2 = false) ->
  documentCount (six s) = Zsize (docs_of pipeline (h1 ++ h2)) -> wordCount (six s) = Zlen (vocabulary (docs_of pipeline (h1 ++ h2))) ->
  counts_after pipeline a h1 h2 u.
Proof.
  intros [_ Hw Hd _] Hm E1 E2. split.
  - rewrite Hd. destruct (no_documentCount a && _)%bool; [reflexivity|]. cbn. rewrite E1. reflexivity.
  - unfold missing in Hm. destruct Hw as [Hw|[_ Hw]].
    + rewrite Hw in *. cbn [counted]. rewrite E2. destruct (no_wordCount a), (words_change _ _ _); cbn [andb negb]; try reflexivity.
      destruct Hm as [_ Hm]. discriminate (Hm (conj eq_refl eq_refl)).
    + destruct Hm as [Hm _]. destruct (Hm Hw) as [-> ->]. rewrite Hw. reflexivity.
Qed.

Lemma okapi_old pipeline a h1 h2 : history_ok pipeline (restored pipeline a h1 h2) ->
  let r := o_okapi_run pipeline h2 (stored_by a (okapi_state pipeline h1)) in
  snd r = Ok tt /\ same_contents (fst r) (okapi_state pipeline (restored pipeline a h1 h2)) /\ counts_after pipeline a h1 h2 (fst r).
Proof.
  intros H. destruct (okapi_upgrade pipeline a h1 h2 H) as (u & E & Hr & Hm). cbv zeta. rewrite E. cbn [fst snd].
  split; [reflexivity|]. split; [exact (r_same _ _ _ _ Hr)|]. apply (rel_counts _ _ _ _ _ _ Hr Hm); rewrite <- (docs_restored pipeline a); apply (okapi_counts pipeline _ H).
Qed.
Lemma cos_old {F} {AF : Arith F} (SF : SafeArith F) (EF : SoundEq F) pipeline a h1 h2 : history_ok pipeline (restored pipeline a h1 h2) ->
  let r := o_cos_run pipeline h2 (stored_by a (cos_state (F := F) pipeline h1)) in
  snd r = Ok tt /\ same_contents (fst r) (cos_state pipeline (restored pipeline a h1 h2)) /\ counts_after pipeline a h1 h2 (fst r).
Proof.
  intros H. destruct (cos_upgrade (F := F) pipeline a h1 h2 H) as (u & E & Hr & Hm). cbv zeta. rewrite E. cbn [fst snd].
  split; [reflexivity|]. split; [exact (r_same _ _ _ _ Hr)|]. apply (rel_counts _ _ _ _ _ _ Hr Hm); rewrite <- (docs_restored pipeline a); apply (cos_counts pipeline _ H).
Qed.

Section OkapiOld.
  Context {F : Type} {AF : Arith F}.
  Variables K1 B : F.
  Variable sw : bindex Z -> list Z -> res (list (smap Z F * F)).
  Hypothesis Hsw : okapi_version K1 B sw.
  Variable pipeline : list elem.
  Variable a : age.
  Variables h1 h2 : list top.
  Hypothesis Hh : history_ok pipeline (restored pipeline a h1 h2).
  Local Notation u := (fst (o_okapi_run pipeline h2 (stored_by a (okapi_state pipeline h1)))).
  Local Notation s := (okapi_state pipeline (restored pipeline a h1 h2)).
  Local Notation osw := (o_okapi_search_wids sw u).

  Lemma okapi_old_rel : exists wc, rel wc (no_documentCount a && negb (documents_change pipeline (docs_of pipeline h1) h2)) u s.
  Proof. destruct (okapi_upgrade pipeline a h1 h2 Hh) as (u & E & Hr & _). rewrite E. eexists. exact Hr. Qed.

  Lemma okapi_old_weight ts : okapi_query_weight pipeline K1 (as_sys u) ts = okapi_query_weight pipeline K1 s ts.
  Proof. destruct okapi_old_rel as [wc Hr]. exact (okapi_qw_same _ _ _ _ _ _ _ Hr). Qed.
  Lemma okapi_old_answers : no_documentCount a && negb (documents_change pipeline (docs_of pipeline h1) h2) = false ->
    (forall t, search pipeline osw (as_sys u) t = search pipeline sw s t) /\
    (forall t, search_phrase pipeline osw (as_sys u) t = search_phrase pipeline sw s t) /\
    (forall p, search_glob osw (as_sys u) p = search_glob sw s p) /\
    (forall space upper qpipeline q start count,
       apply space upper qpipeline pipeline osw (okapi_query_weight pipeline K1) (as_sys u) q start count =
       apply space upper qpipeline pipeline sw (okapi_query_weight pipeline K1) s q start count).
  Proof.
    intros Hd. destruct okapi_old_rel as [wc Hr]. rewrite Hd in Hr. destruct (rel_maps _ _ _ _ Hr) as (E1 & E2 & E3 & _).
    pose proof (fun wids => okapi_sw_same K1 B sw wc u s wids Hsw Hr) as Es.
    split; [|split; [|split]]; intros.
    - apply maps_search; assumption.
    - apply maps_phrase; assumption.
    - apply maps_glob; assumption.
    - apply maps_apply; try assumption. exact okapi_old_weight.
  Qed.
  Lemma okapi_old_raises : no_documentCount a = true -> documents_change pipeline (docs_of pipeline h1) h2 = false ->
    (forall t, (exists w, In w (text_words pipeline t) /\ In w (vocabulary (docs_of pipeline (h1 ++ h2)))) ->
       search pipeline osw (as_sys u) t = Raise NotImplementedError) /\
    (forall t, (forall w, In w (text_words pipeline t) -> ~ In w (vocabulary (docs_of pipeline (h1 ++ h2)))) ->
       search pipeline osw (as_sys u) t = search pipeline sw s t) /\
    (forall t, search_phrase pipeline osw (as_sys u) t = search_phrase pipeline sw s t \/
               search_phrase pipeline osw (as_sys u) t = Raise NotImplementedError) /\
    (forall p, search_glob osw (as_sys u) p = search_glob sw s p \/ search_glob osw (as_sys u) p = Raise NotImplementedError).
  Proof.
    intros Ha Hd. destruct okapi_old_rel as [wc Hr]. rewrite Ha, Hd in Hr. cbn [andb negb] in Hr. destruct (rel_maps _ _ _ _ Hr) as (E1 & E2 & E3 & _).
    pose proof (fun wids => okapi_sw_fail K1 B sw wc u s wids Hsw Hr) as Es.
    destruct (okapi_state_ok pipeline _ Hh) as (_ & _ & Hi & _). rewrite docs_restored in Hi.
    assert (Hoov : forall t, remove_oov (six s) (termToWordIds pipeline t (slx s)) =
      ids (slx s) (inv_words (docs_of pipeline (h1 ++ h2)) (text_words pipeline t))).
    { intros t. rewrite <- (remove_oov_ids f32Z okapi_fr okapi_keys s _ Hi). reflexivity. }
    split; [|split; [|split]]; intros.
    - rewrite (fail_search pipeline osw sw _ _ E1 E2 NotImplementedError Es), Hoov. destruct H as (w & Hw & Hv).
      assert (Hin : In w (inv_words (docs_of pipeline (h1 ++ h2)) (text_words pipeline t))) by (apply inv_words_In; auto).
      destruct (inv_words _ _); [destruct Hin|reflexivity].
    - rewrite (fail_search pipeline osw sw _ _ E1 E2 NotImplementedError Es), Hoov.
      destruct (inv_words _ _) as [|w l] eqn:E; [reflexivity|]. exfalso.
      assert (Hin : In w (inv_words (docs_of pipeline (h1 ++ h2)) (text_words pipeline t))) by (rewrite E; left; reflexivity).
      apply inv_words_In in Hin as [Hw Hv]. exact (H w Hw Hv).
    - exact (fail_phrase pipeline osw sw _ _ E1 E2 E3 NotImplementedError Es t).
    - exact (fail_glob osw sw _ _ E1 E2 NotImplementedError Es p).
  Qed.
End OkapiOld.

Lemma cos_old_answers {F} {AF : Arith F} (SF : SafeArith F) (EF : SoundEq F) pipeline a h1 h2 : history_ok pipeline (restored pipeline a h1 h2) ->
  let u := fst (o_cos_run pipeline h2 (stored_by a (cos_state (F := F) pipeline h1))) in
  let s := cos_state pipeline (restored pipeline a h1 h2) in
  (forall t, search pipeline cos_search_wids (as_sys u) t = search pipeline cos_search_wids s t) /\
  (forall t, search_phrase pipeline cos_search_wids (as_sys u) t = search_phrase pipeline cos_search_wids s t) /\
  (forall p, search_glob cos_search_wids (as_sys u) p = search_glob cos_search_wids s p) /\
  (forall ts, cos_query_weight pipeline (as_sys u) ts = cos_query_weight pipeline s ts) /\
  (forall space upper qpipeline q start count,
     apply space upper qpipeline pipeline cos_search_wids (cos_query_weight pipeline) (as_sys u) q start count =
     apply space upper qpipeline pipeline cos_search_wids (cos_query_weight pipeline) s q start count).
Proof.
  intros H u s. destruct (cos_upgrade (F := F) pipeline a h1 h2 H) as (u' & E & Hr & _). subst u. rewrite E. cbn [fst].
  destruct (rel_maps _ _ _ _ Hr) as (E1 & E2 & E3 & _). fold s in E1, E2, E3, Hr.
  pose proof (fun wids => cos_sw_same _ _ u' s wids Hr) as Es. pose proof (fun ts => cos_qw_same pipeline _ _ u' s ts Hr) as Eq.
  split; [|split; [|split; [|split]]]; intros.
  - apply maps_search; assumption.
  - apply maps_phrase; assumption.
  - apply maps_glob; assumption.
  - apply Eq.
  - apply maps_apply; assumption.
Qed.
