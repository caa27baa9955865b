(** * Lemmas: concurrent transactions on a text index *)
From Verif Require Import L_widcode L_lexicon L_setops L_baseindex L_textsys L_okapi L_textapi L_indeptext L_zodb L_zlexicon L_zbase S_ztext Ord.

(** ** Calls that succeed change the lexicon as the texts say *)
Section Follows.
  Context {V : Type}.
  Definition follows {A} (m : sx (sys V) A) (g : lex -> lex) : Prop := forall s s' x, m s = (s', Ok x) -> slx s' = g (slx s).
  Definition keeps {A} (m : sx (sys V) A) : Prop := follows m (fun lx => lx).
  Lemma fol_bind {A B} (m : sx (sys V) A) (f : A -> sx (sys V) B) g h : follows m g -> (forall a, follows (f a) h) -> follows (sbind m f) (fun lx => h (g lx)).
  Proof.
    intros Hm Hf s s' x. unfold sbind. destruct (m s) as [s1 [a|e]] eqn:E; [|discriminate]. intros E'.
    rewrite (Hf _ _ _ _ E'), (Hm _ _ _ E). reflexivity.
  Qed.
  Lemma keep_bind {A B} (m : sx (sys V) A) (f : A -> sx (sys V) B) : keeps m -> (forall a, keeps (f a)) -> keeps (sbind m f).
  Proof. intros H1 H2. exact (fol_bind m f _ _ H1 H2). Qed.
  Lemma keep_then {A B} (m : sx (sys V) A) (f : A -> sx (sys V) B) h : keeps m -> (forall a, follows (f a) h) -> follows (sbind m f) h.
  Proof. intros H1 H2. exact (fol_bind m f _ _ H1 H2). Qed.
  Lemma fol_then {A B} (m : sx (sys V) A) (f : A -> sx (sys V) B) g : follows m g -> (forall a, keeps (f a)) -> follows (sbind m f) g.
  Proof. intros H1 H2. exact (fol_bind m f _ _ H1 H2). Qed.
  Lemma keep_ret {A} (a : A) : keeps (sret a).
  Proof. intros s s' x [= <- _]. reflexivity. Qed.
  Lemma keep_lift {A} (f : sys V -> res A) : keeps (slift f).
  Proof. intros s s' x [= <- _]. reflexivity. Qed.
  Lemma keep_on f : keeps (on_ix (V := V) f).
  Proof. intros s s' x [= <- _]. reflexivity. Qed.
  Lemma keep_if {A} (b : bool) (m m' : sx (sys V) A) : keeps m -> keeps m' -> keeps (if b then m else m').
  Proof. destruct b; auto. Qed.
  Lemma fol_test {A} (c : sys V -> bool) (m m' : sx (sys V) A) g : follows m g -> follows m' g -> follows (fun s => if c s then m s else m' s) g.
  Proof. intros H1 H2 s s' x. destruct (c s); [apply H1|apply H2]. Qed.
  Lemma keep_iter {A} (f : A -> sx (sys V) unit) l : (forall a, keeps (f a)) -> keeps (siter f l).
  Proof. intros H. induction l as [|x l IH]; cbn [siter]; [apply keep_ret|apply keep_bind; auto]. Qed.
  Lemma keep_del w d : keeps (del_wordinfo (V := V) w d).
  Proof.
    unfold del_wordinfo. apply keep_bind; [apply keep_lift|]. intros p. apply keep_bind; [apply keep_lift|]. intros _.
    apply keep_if; apply keep_on.
  Qed.
  Variable pipeline : list elem.
  Lemma fol_source t : follows (source (V := V) pipeline t) (fun lx => lex_step pipeline lx (LText t)).
  Proof.
    intros s s' x. unfold source. cbn [lex_step]. destruct (sourceToWordIds pipeline t (slx s)) as [lx r]. intros [= <- _]. reflexivity.
  Qed.
  Lemma fol_reindex rnd veqb (freqs : list Z -> res (smap Z V * V)) d t :
    follows (base_reindex_with rnd veqb freqs d (source pipeline t)) (fun lx => lex_step pipeline lx (LText t)).
  Proof.
    unfold base_reindex_with. apply keep_then; [apply keep_lift|]. intros old. apply keep_then; [apply keep_lift|]. intros [m0 x0].
    apply fol_then; [apply fol_source|]. intros new. apply keep_bind; [apply keep_lift|]. intros [m dw].
    apply keep_bind; [apply keep_iter; intros; apply keep_del|]. intros _.
    apply keep_bind. { apply keep_iter; intros i. apply keep_bind; [apply keep_lift|intros w; apply keep_on]. } intros _.
    apply keep_bind.
    { apply keep_iter; intros i. apply keep_bind; [apply keep_lift|intros w]. apply keep_bind; [apply keep_lift|intros w'].
      apply keep_if; [apply keep_on|apply keep_ret]. }
    intros _. apply keep_bind; [apply keep_on|]. intros _. apply keep_bind; [apply keep_lift|]. intros code.
    apply keep_bind; [apply keep_on|]. intros _. apply keep_ret.
  Qed.
  Lemma fol_index rnd (freqs : list Z -> res (smap Z V * V)) re d t :
    (forall d, follows (re d (source pipeline t)) (fun lx => lex_step pipeline lx (LText t))) ->
    follows (base_index_doc_with rnd freqs re d (source pipeline t)) (fun lx => lex_step pipeline lx (LText t)).
  Proof.
    intros Hre. unfold base_index_doc_with. apply fol_test; [apply Hre|]. apply fol_then; [apply fol_source|]. intros new. apply keep_bind; [apply keep_lift|]. intros [m dw].
    apply keep_bind; [apply keep_on|]. intros _. apply keep_bind; [apply keep_on|]. intros _. apply keep_bind; [apply keep_lift|]. intros code.
    apply keep_bind; [apply keep_on|]. intros _. apply keep_bind; [apply keep_on|]. intros _. apply keep_ret.
  Qed.
  Lemma keep_unindex d : keeps (base_unindex_doc (V := V) d).
  Proof.
    unfold base_unindex_doc. apply fol_test; [intros s s' x [= <- _]; reflexivity|].
    apply keep_bind; [apply keep_lift|]. intros wids. apply keep_bind; [apply keep_iter; intros; apply keep_del|]. intros _.
    apply keep_bind; [apply keep_bind; [apply keep_lift|intros _; apply keep_on]|]. intros _.
    apply keep_bind; [apply keep_bind; [apply keep_lift|intros _; apply keep_on]|]. intros _. apply keep_on.
  Qed.
  Lemma fol_ops idx un ops :
    (forall d t, follows (idx d t) (fun lx => lex_step pipeline lx (LText t))) -> (forall d, keeps (un d)) ->
    follows (siter (op_step (V := V) pipeline idx un) ops) (fold_left (lex_step pipeline) (lex_hist ops)).
  Proof.
    intros Hi Hu. induction ops as [|o ops IH]; [apply keep_ret|]. cbn [siter].
    assert (Ho : follows (op_step pipeline idx un o) (fold_left (lex_step pipeline) (lex_hist [o]))).
    { destruct o as [d t|d| |lo]; cbn [op_step lex_hist flat_map app fold_left].
      - apply fol_then; [apply Hi|intros; apply keep_ret].
      - apply Hu.
      - apply keep_on.
      - intros s s' x [= <- _]. reflexivity. }
    intros s s' x E. pose proof (fol_bind _ _ _ _ Ho (fun _ => IH) s s' x E) as H. rewrite H.
    change (lex_hist (o :: ops)) with (lex_hist ([o] ++ ops)). rewrite lex_hist_app, fold_left_app. reflexivity.
  Qed.
End Follows.

(** ** Documents *)
Lemma documents_D {V} (rnd : V -> V) fr (s : sys V) D : sysinv rnd fr s D -> documents s = D.
Proof.
  intros H. apply smap_ext. intros d. unfold documents. rewrite get_mmap, (doc_text_D _ _ _ _ d H).
  pose proof (has_doc_D _ _ _ _ d H) as Hd. unfold has_doc, mem in Hd.
  destruct (get (docwords (six s)) d), (get D d); cbn in Hd; congruence.
Qed.
Lemma docs_step_local pipeline o (D D' : smap Z (list str)) d : get D d = get D' d ->
  get (docs_step pipeline D o) d = get (docs_step pipeline D' o) d.
Proof.
  intros H. destruct o as [x t|x| |lo]; cbn [docs_step]; [| |reflexivity|exact H].
  - rewrite !get_put. destruct (eqb d x); [reflexivity|exact H].
  - rewrite !get_del. destruct (eqb d x); [reflexivity|exact H].
Qed.
Lemma docs_local pipeline ops : forall (D D' : smap Z (list str)) d, get D d = get D' d ->
  get (fold_left (docs_step pipeline) ops D) d = get (fold_left (docs_step pipeline) ops D') d.
Proof. induction ops as [|o ops IH]; intros D D' d H; [exact H|]. cbn [fold_left]. apply IH, docs_step_local, H. Qed.
Lemma docs_untouched pipeline ops : forall (D : smap Z (list str)) d, clears_t ops = false -> ~ In d (docs_of_t ops) ->
  get (fold_left (docs_step pipeline) ops D) d = get D d.
Proof.
  induction ops as [|o ops IH]; intros D d Hc Hd; [reflexivity|]. cbn [fold_left]. unfold clears_t in Hc. cbn [existsb] in Hc.
  apply orb_false_iff in Hc as [Hc1 Hc2]. unfold docs_of_t in Hd. cbn [map concat] in Hd.
  rewrite IH; [|exact Hc2|intros H; apply Hd, in_or_app; right; exact H].
  assert (Hd1 : forall x, (exists t, o = TIndex x t) \/ o = TUnindex x -> eqb d x = false).
  { intros x Hx. apply eqb_neq. intros ->. apply Hd, in_or_app. left. destruct Hx as [[t ->]| ->]; left; reflexivity. }
  destruct o as [x t|x| |lo]; cbn [docs_step]; [| |discriminate|reflexivity].
  - rewrite get_put, (Hd1 x); [reflexivity|eauto].
  - rewrite get_del, (Hd1 x); [reflexivity|eauto].
Qed.

(** The number of words is merged as the documents are. *)
Lemma total_count (D : smap Z (list str)) L : NoDup L -> (forall k, mem k D = true -> In k L) ->
  total_words D = fold_right Z.add 0 (map (len_at D) L).
Proof.
  intros HL Hin. transitivity (fold_right Z.add 0 (map (len_at D) (keys D))).
  - unfold total_words, vals, keys. rewrite !map_map. f_equal. apply map_ext_in. intros [k v] Hk. apply get_In in Hk.
    unfold len_at. cbn [fst snd]. rewrite Hk. reflexivity.
  - transitivity (fold_right Z.add 0 (map (len_at D) (filter (fun k => mem k D) L))).
    + apply sumZ_perm, Permutation_map, NoDup_Permutation; [apply keys_NoDup|apply NoDup_filter, HL|].
      intros k. rewrite filter_In, keys_mem. split; [auto|tauto].
    + clear HL Hin. induction L as [|k L IH]; [reflexivity|]. cbn [filter map fold_right]. rewrite <- IH.
      assert (Hl : mem k D = false -> len_at D k = 0) by (intros H; apply mem_false in H; unfold len_at; rewrite H; reflexivity).
      destruct (mem k D) eqn:E; cbn [map fold_right]; [reflexivity|]. rewrite (Hl eq_refl). lia.
Qed.
Lemma total_merged (o a b m : smap Z (list str)) : (forall d, merged (get o d) (get a d) (get b d) (get m d)) ->
  total_words m = total_words a + total_words b - total_words o.
Proof.
  intros Hm. set (L := selems (sunion (sunion (keyset o) (keyset a)) (sunion (keyset b) (keyset m)))).
  assert (HL : NoDup L) by apply keys_NoDup.
  assert (Hin : forall k, In k L <-> mem k o = true \/ mem k a = true \/ mem k b = true \/ mem k m = true).
  { intros k. unfold L. rewrite selems_In, !mem_sunion, !mem_keyset, !orb_true_iff. tauto. }
  rewrite !(total_count _ L HL) by (intros k Hk; apply Hin; auto). clearbody L. clear Hin HL.
  induction L as [|k L IH]; [reflexivity|]. cbn [map fold_right].
  assert (E : len_at m k = len_at a k + len_at b k - len_at o k); [|lia].
  unfold len_at. destruct (Hm k) as [[-> ->]|(_ & -> & ->)]; lia.
Qed.

(** ** The index as a whole *)
Section Sys.
  Context {V : Type}.
  Variable same : V -> V -> bool.
  Hypothesis same_eq : eq_test same.
  Variable rnd : V -> V.
  Variable fr : list Z -> smap Z V * V.
  Variable sound : lex -> list Z -> Prop.
  Hypothesis rnd_inj : forall lx wids wids' w v v', sound lx wids -> sound lx wids' ->
    get (fst (fr wids)) w = Some v -> get (fst (fr wids')) w = Some v' -> rnd v = rnd v' -> v = v'.
  Hypothesis fr_keys : forall wids w, mem w (fst (fr wids)) = true <-> In w wids.
  Variable sound_text : list str -> Prop.
  Hypothesis sound_ids : forall lx ws, bij lx -> (forall w, In w ws -> exists i, get (lwids lx) w = Some i) -> sound_text ws -> sound lx (ids lx ws).
  (** What decides about the answers of an index: one that keeps more digits than others do
      of some weights may answer like them. *)
  Variable R : bindex V -> bindex V.
  Hypothesis R_ix3 : forall tot o a b m, ix3 same tot o a b = Some m -> ix3 same tot (R o) (R a) (R b) = Some (R m).
  Hypothesis R_words : forall ix, docwords (R ix) = docwords ix.
  Hypothesis R_total : forall n ix, R (set_totaldoclen n ix) = set_totaldoclen n (R ix).
  Hypothesis R_tot : forall ix, totaldoclen (R ix) = totaldoclen ix.
  Hypothesis R_new : R ix_new = ix_new.
  Local Notation inv s D := (sysinv rnd fr (mkSys (slx s) (R (six s))) D).
  Lemma documents_R s D : inv s D -> documents s = D.
  Proof.
    clear - R_words. intros H. rewrite <- (documents_D _ _ _ _ H). unfold documents, doc_text, get_words. cbn [six slx]. rewrite R_words. reflexivity.
  Qed.

  Definition docs_sound (D : smap Z (list str)) : Prop := forall d ws, get D d = Some ws -> sound_text ws.
  Definition word_at (lx : lex) (i : Z) : str := match get (lwords lx) i with Some w => w | None => [] end.

  Lemma ids_back lx D d : bij lx -> known lx D -> option_map (map (word_at lx)) (get (idmap lx D) d) = get D d.
  Proof.
    intros Hb Hk. rewrite get_idmap. destruct (get D d) as [ws|] eqn:E; [|reflexivity]. cbn [option_map]. f_equal.
    unfold ids. rewrite map_map. rewrite <- (map_id ws) at 2. apply map_ext_in. intros w Hw. destruct (Hk d ws E w Hw) as [i Hi].
    unfold get_wid, word_at. rewrite Hi. apply Hb in Hi. rewrite Hi. reflexivity.
  Qed.

  Lemma sys_merge o a b lx ix tot Do Da Db : inv o Do -> inv a Da -> inv b Db ->
    docs_sound Do -> docs_sound Da -> docs_sound Db -> bij lx -> grows (slx o) lx -> grows (slx a) lx -> grows (slx b) lx ->
    ix3 same tot (six o) (six a) (six b) = Some ix ->
    exists Dm, inv (mkSys lx ix) Dm /\ (forall d, merged (get Do d) (get Da d) (get Db d) (get Dm d)) /\ totaldoclen ix = tot.
  Proof.
    intros (_ & Ko & Io) (_ & Ka & Ia) (_ & Kb & Ib) So Sa Sb Hb Go Ga Gb E. cbn [slx six] in *. rewrite <- (R_tot ix). apply R_ix3 in E.
    rewrite <- (idmap_grows _ _ _ Go Ko) in Io. rewrite <- (idmap_grows _ _ _ Ga Ka) in Ia. rewrite <- (idmap_grows _ _ _ Gb Kb) in Ib.
    apply (known_grows _ _ _ Go) in Ko. apply (known_grows _ _ _ Ga) in Ka. apply (known_grows _ _ _ Gb) in Kb.
    assert (Hs : forall D, docs_sound D -> known lx D -> all_sound (sound lx) (idmap lx D)).
    { intros D SD KD d wids. rewrite get_idmap. destruct (get D d) as [ws|] eqn:Ed; [|discriminate]. intros [= <-]. apply sound_ids; [exact Hb|exact (KD d ws Ed)|eauto]. }
    pose proof (ix3_ok same same_eq rnd fr (sound lx) (rnd_inj lx) _ _ _ _ _ _ _ _ Io Ia Ib (Hs _ So Ko) (Hs _ Sa Ka) (Hs _ Sb Kb) E) as Im.
    pose proof (merged_docs same same_eq rnd fr _ _ _ _ _ _ _ _ Io Ia Ib E) as Hm.
    destruct (ix3_inv same same_eq _ _ _ _ _ E) as (Ht & _).
    set (Em := merged_E (R ix)) in *. exists (mmap (fun _ => map (word_at lx)) Em).
    assert (Hg : forall d, get (mmap (fun _ => map (word_at lx)) Em) d = option_map (map (word_at lx)) (get Em d)).
    { intros d. rewrite get_mmap. destruct (get Em d); reflexivity. }
    assert (Hmd : forall d, merged (get Do d) (get Da d) (get Db d) (get (mmap (fun _ => map (word_at lx)) Em) d)).
    { intros d. rewrite Hg. destruct (Hm d) as [[E1 E2]|(E1 & E2 & E3)].
      - left. rewrite E2, (ids_back _ _ _ Hb Kb). split; [|reflexivity].
        rewrite <- (ids_back _ _ d Hb Ka), <- (ids_back _ _ d Hb Ko), E1. reflexivity.
      - right. rewrite E3, (ids_back _ _ _ Hb Ka). split; [|split; [|reflexivity]].
        + intros E'. apply E1. rewrite !get_idmap, E'. reflexivity.
        + rewrite <- (ids_back _ _ d Hb Kb), <- (ids_back _ _ d Hb Ko), E2. reflexivity. }
    split; [|split; [exact Hmd|exact Ht]]. split; [exact Hb|]. cbn [slx six]. split.
    - intros d ws Hd. destruct (Hmd d) as [[_ E2]|(_ & _ & E2)]; rewrite E2 in Hd; eauto.
    - replace (idmap lx _) with Em; [exact Im|]. apply smap_ext. intros d. rewrite get_idmap, Hg.
      destruct (Hm d) as [[_ ->]|(_ & _ & ->)].
      + rewrite (ids_back _ _ _ Hb Kb), get_idmap. reflexivity.
      + rewrite (ids_back _ _ _ Hb Ka), get_idmap. reflexivity.
  Qed.
  Lemma wid_grows lx lx' w : grows lx lx' -> (exists i, get (lwids lx) w = Some i) -> get_wid lx' w = get_wid lx w.
  Proof. clear. intros G [i Hi]. unfold get_wid. rewrite Hi, (proj1 G _ _ Hi). reflexivity. Qed.
  Lemma vocab_known s D w : inv s D -> In w (vocabulary D) -> exists i, get (lwids (slx s)) w = Some i.
  Proof. clear - fr_keys. intros (_ & K & _) Hw. apply vocabulary_In in Hw as (d & ws & Hd & Hw). exact (K d ws Hd w Hw). Qed.
  (** a word new on both sides: its posting sets cannot be merged *)
  Lemma new_word_clash o a b lx ix tot Do Da Db w : inv o Do -> inv a Da -> inv b Db ->
    bij lx -> grows (slx o) lx -> grows (slx a) lx -> grows (slx b) lx -> ix3 same tot (six o) (six a) (six b) = Some ix ->
    ~ In w (vocabulary Do) -> In w (vocabulary Da) -> In w (vocabulary Db) -> False.
  Proof.
    intros Io Ia Ib Hb Go Ga Gb E No Na Nb. apply R_ix3 in E. destruct (ix3_inv same same_eq _ _ _ _ _ E) as (_ & _ & _ & Hp & _).
    specialize (Hp (get_wid lx w)).
    assert (Pa : exists p, get (wordinfo (R (six a))) (get_wid lx w) = Some p).
    { apply keys_In. rewrite (wid_grows _ _ _ Ga (vocab_known _ _ _ Ia Na)). eapply Permutation_in; [symmetry; exact (wordinfo_keys rnd fr fr_keys _ Da Ia)|]. apply in_map, Na. }
    assert (Pb : exists p, get (wordinfo (R (six b))) (get_wid lx w) = Some p).
    { apply keys_In. rewrite (wid_grows _ _ _ Gb (vocab_known _ _ _ Ib Nb)). eapply Permutation_in; [symmetry; exact (wordinfo_keys rnd fr fr_keys _ Db Ib)|]. apply in_map, Nb. }
    assert (Po : get (wordinfo (R (six o))) (get_wid lx w) = None).
    { destruct (get (wordinfo (R (six o))) (get_wid lx w)) as [p|] eqn:Ep; [exfalso|reflexivity].
      assert (Hk : In (get_wid lx w) (keys (wordinfo (R (six o))))) by (apply keys_In; eauto).
      apply (Permutation_in _ (wordinfo_keys rnd fr fr_keys _ Do Io)) in Hk. apply in_map_iff in Hk as (w' & Ew & Hw').
      cbn [slx] in Ew. destruct (vocab_known _ _ _ Io Hw') as [i Hi]. destruct (vocab_known _ _ _ Ia Na) as [k Hk].
      rewrite <- (wid_grows _ _ _ Go (ex_intro _ _ Hi)) in Ew. unfold get_wid in Ew.
      rewrite (proj1 Go _ _ Hi), (proj1 Ga _ _ Hk) in Ew. subst k. apply (proj1 Go) in Hi. apply (proj1 Ga) in Hk. apply Hb in Hi, Hk.
      assert (w' = w) by congruence. subst w'. contradiction. }
    destruct Pa as [pa Pa], Pb as [pb Pb]. rewrite Pa, Pb, Po in Hp. discriminate.
  Qed.
  Lemma inv_total n s D : inv s D -> inv (mkSys (slx s) (set_totaldoclen n (six s))) D.
  Proof.
    intros (H1 & H2 & [I1 I2 I3 [I4 I4'] I5]). cbn [slx six] in *. split; [exact H1|]. split; [exact H2|]. cbn [slx six]. rewrite R_total.
    constructor; cbn [six set_totaldoclen docwords docweight documentCount]; auto. split; auto.
  Qed.

  Variable pipeline : list elem.
  Variable index_doc : Z -> ltext -> sx (sys V) Z.
  Variable unindex_doc : Z -> sx (sys V) unit.
  Local Notation words t := (text_words pipeline t).
  Local Notation exec := (siter (op_step pipeline index_doc unindex_doc)).
  Definition sound_ops (ops : list top) : Prop := forall d t, In (TIndex d t) ops -> sound_text (words t).
  (** what is counted in [_totaldoclen] *)
  Variable tw : smap Z (list str) -> Z.
  Hypothesis tw_empty : tw empty = 0.
  Hypothesis tw_merged : forall o a b m, (forall d, merged (get o d) (get a d) (get b d) (get m d)) -> tw m = tw a + tw b - tw o.
  Hypothesis exec_lex : forall ops, follows (exec ops) (fold_left (lex_step pipeline) (lex_hist ops)).
  Hypothesis exec_ok : forall ops s D, inv s D -> docs_sound D -> sound_ops ops -> no_drift (lex_hist ops) ->
    small (fold_left (lex_step pipeline) (lex_hist ops) (slx s)) ->
    exists s', exec ops s = (s', Ok tt) /\ inv s' (fold_left (docs_step pipeline) ops D) /\
      (clears_t ops = false -> totaldoclen (six s') - totaldoclen (six s) = tw (fold_left (docs_step pipeline) ops D) - tw D).

  (** all texts that transactions index *)
  Variable TT : list ltext.
  Hypothesis few : Zlen (distinct (flat_map (text_words pipeline) TT)) < 2 ^ 28.

  Lemma op_texts_app h1 h2 : op_texts (h1 ++ h2) = op_texts h1 ++ op_texts h2.
  Proof. clear. unfold op_texts. apply flat_map_app. Qed.
  Lemma lex_hist_texts ops : no_drift (lex_hist ops) -> lex_hist ops = map LText (op_texts ops).
  Proof.
    clear. induction ops as [|o ops IH]; intros Hn; [reflexivity|].
    assert (Hn' : no_drift (lex_hist ops)).
    { intros n Hin. apply (Hn n). change (lex_hist (o :: ops)) with (lex_hist ([o] ++ ops)). rewrite lex_hist_app. apply in_or_app. auto. }
    change (o :: ops) with ([o] ++ ops). rewrite lex_hist_app, op_texts_app, map_app, <- (IH Hn'). f_equal. destruct o as [d t|d| |[t|n]]; try reflexivity.
    destruct (Hn n). left. reflexivity.
  Qed.
  Lemma index_texts ops d t : In (TIndex d t) ops -> In t (op_texts ops).
  Proof. clear. intros H. apply in_flat_map. exists (TIndex d t). split; [exact H|left; reflexivity]. Qed.
  Lemma words_of_texts T : words_of pipeline (map LText T) = flat_map (text_words pipeline) T.
  Proof. clear. unfold words_of. rewrite !flat_map_concat_map, map_map. reflexivity. Qed.
  Lemma no_drift_texts T : no_drift (map LText T).
  Proof. clear. intros n H. apply in_map_iff in H as (t & ? & _). discriminate. Qed.
  Lemma dense_small T : incl T TT -> small (lex_run pipeline (map LText T)).
  Proof.
    clear - few. intros HT i w Hi. pose proof (lex_run_linv pipeline (map LText T) (no_drift_texts T)) as HL. rewrite words_of_texts in HL.
    assert (Hd : dense (lex_run pipeline (map LText T))).
    { unfold lex_run. rewrite <- lex_texts_steps, lex_texts_fold by apply bij_new. apply fold_dense, dense_new. }
    assert (Hx : exists w, get (lwords (lex_run pipeline (map LText T))) i = Some w) by eauto. apply (proj2 Hd) in Hx.
    assert (Hc : lcount (lex_run pipeline (map LText T)) = Zlen (distinct (flat_map (text_words pipeline) T))) by apply HL.
    pose proof (distinct_spec (flat_map (text_words pipeline) T)) as [N1 I1]. pose proof (distinct_spec (flat_map (text_words pipeline) TT)) as [_ I2].
    assert (Hle : (length (distinct (flat_map (text_words pipeline) T)) <= length (distinct (flat_map (text_words pipeline) TT)))%nat).
    { apply NoDup_incl_length; [exact N1|]. intros x Hx'. apply I2. apply I1 in Hx'. apply in_flat_map in Hx' as (t & Ht & Hw).
      apply in_flat_map. eauto. }
    unfold Zlen in *. lia.
  Qed.

  Local Notation docs st := (documents (zt_sys st)).
  Definition vinv (st : ztext V) : Prop :=
    inv (zt_sys st) (docs st) /\ docs_sound (docs st) /\ 0 <= zt_gen st /\
    (zt_gen st = 0 -> totaldoclen (six (zt_sys st)) = tw (docs st)) /\
    (forall d ws, get (docs st) d = Some ws -> exists t, In t TT /\ words t = ws) /\
    exists T, incl T TT /\ slx (zt_sys st) = lex_run pipeline (map LText T).
  Definition good_ops (ops : list top) : Prop := sound_ops ops /\ no_drift (lex_hist ops) /\ incl (op_texts ops) TT.
  Definition lxs (vs : list (ztext V)) : list lex := map (fun st => slx (zt_sys st)) vs.
  Local Notation commit := (zt_commit same pipeline index_doc unindex_doc).

  Lemma vinv_new : vinv zt_new.
  Proof.
    pose proof (sys_new rnd fr) as H. rewrite <- R_new in H. change (inv (mkSys lex_new (ix_new (V := V))) empty) in H. pose proof (documents_R _ _ H) as Hd.
    unfold vinv, zt_new. cbn [zt_sys zt_gen]. rewrite Hd.
    split; [exact H|]. split; [intros d ws; rewrite get_empty; discriminate|]. split; [lia|]. split; [intros _; rewrite tw_empty; reflexivity|].
    split; [intros d ws; rewrite get_empty; discriminate|]. exists []. split; [intros x []|reflexivity].
  Qed.
  Lemma docs_texts ops : forall D, (forall d ws, get D d = Some ws -> exists t, In t TT /\ words t = ws) -> incl (op_texts ops) TT ->
    forall d ws, get (fold_left (docs_step pipeline) ops D) d = Some ws -> exists t, In t TT /\ words t = ws.
  Proof.
    clear. induction ops as [|o ops IH]; intros D HD Hi; [exact HD|]. cbn [fold_left].
    change (o :: ops) with ([o] ++ ops) in Hi. rewrite op_texts_app in Hi. apply IH; [|intros t Ht; apply Hi, in_or_app; auto].
    destruct o as [x t|x| |lo]; cbn [docs_step]; intros d ws; [| | |apply HD].
    - rewrite get_put. destruct (eqb d x); [|apply HD]. intros [= <-]. exists t. split; [|reflexivity]. apply Hi, in_or_app. left. left. reflexivity.
    - rewrite get_del. destruct (eqb d x); [discriminate|apply HD].
    - rewrite get_empty. discriminate.
  Qed.
  Lemma docs_sounds ops : forall D, docs_sound D -> sound_ops ops -> docs_sound (fold_left (docs_step pipeline) ops D).
  Proof.
    clear. induction ops as [|o ops IH]; intros D HD Hi; [exact HD|]. cbn [fold_left].
    apply IH; [|intros d t Ht; apply (Hi d); right; exact Ht].
    destruct o as [x t|x| |lo]; cbn [docs_step]; intros d ws; [| | |apply HD].
    - rewrite get_put. destruct (eqb d x); [|apply HD]. intros [= <-]. apply (Hi x). left. reflexivity.
    - rewrite get_del. destruct (eqb d x); [discriminate|apply HD].
    - rewrite get_empty. discriminate.
  Qed.
  Lemma count_clears_0 ops : 0 <= count_clears ops /\ (count_clears ops = 0 <-> clears_t ops = false).
  Proof.
    clear. unfold count_clears, clears_t, Zlen. split; [lia|]. induction ops as [|o ops IH]; [cbn; tauto|]. cbn [filter existsb].
    destruct o; cbn [orb length]; try exact IH. split; [lia|discriminate].
  Qed.

  (** What a commit does. *)
  Definition effect (snap cur st : ztext V) (ops : list top) : Prop :=
    (cleared_since_t snap cur = false -> clears_t ops = false -> forall w, ~ In w (vocabulary (docs snap)) -> In w (vocabulary (docs cur)) ->
       ~ In w (vocabulary (fold_left (docs_step pipeline) ops (docs snap)))) /\
    slx (zt_sys st) = lex_texts pipeline (op_texts ops) (slx (zt_sys cur)) /\
    committed (cleared_since_t snap cur) (clears_t ops) (docs snap) (docs cur) (fold_left (docs_step pipeline) ops (docs snap)) (docs st) /\
    (clears_t ops = false -> totaldoclen (six (zt_sys st)) =
       totaldoclen (six (zt_sys cur)) + (tw (fold_left (docs_step pipeline) ops (docs snap)) - tw (docs snap))).

  (** clearing is never undone *)
  Definition top_gen (vs : list (ztext V)) : Prop := forall cur x, hd_error vs = Some cur -> In x vs -> zt_gen x <= zt_gen cur.
  Lemma commit_effect vs i j ops st : lex_chain (lxs vs) -> Forall vinv vs -> top_gen vs -> good_ops ops -> commit vs i j ops = Some st ->
    exists cur snap, hd_error vs = Some cur /\ nth_error vs i = Some snap /\ effect snap cur st ops /\ vinv st /\
      lex_chain (lxs (st :: vs)) /\ top_gen (st :: vs).
  Proof.
    intros Hch Hvs Hg (Gs & Gn & Gi). unfold zt_commit. destruct vs as [|cur vs]; [discriminate|].
    destruct (nth_error (cur :: vs) i) as [snap|] eqn:Ei; [|discriminate].
    destruct (nth_error (cur :: vs) (Nat.min i j)) as [seen|] eqn:Ej; [|discriminate].
    unfold zt_exec. set (begin := zt_begin seen snap). destruct (exec ops (zt_sys begin)) as [own [[]|e]] eqn:Ex; [|discriminate]. intros E.
    exists cur, snap. split; [reflexivity|]. split; [reflexivity|].
    pose proof (proj1 (Forall_forall _ _) Hvs) as Hv. pose proof (Hg cur snap eq_refl (nth_error_In _ _ Ei)) as Hgs. pose proof (Hv _ (nth_error_In _ _ Ei)) as Vs. pose proof (Hv cur (or_introl eq_refl)) as Vc.
    pose proof (exec_lex ops _ _ _ Ex) as Lo. rewrite (lex_hist_texts ops Gn), <- lex_texts_steps in Lo.
    unfold zt_merge in E. cbn [zt_sys] in E. destruct (lex3 _ _ _ (slx own)) as [lx|] eqn:El; [|discriminate].
    assert (Li : nth_error (lxs (cur :: vs)) i = Some (slx (zt_sys snap))) by (unfold lxs; rewrite nth_error_map, Ei; reflexivity).
    assert (Lj : nth_error (lxs (cur :: vs)) (Nat.min i j) = Some (slx (zt_sys seen))) by (unfold lxs; rewrite nth_error_map, Ej; reflexivity).
    assert (Ec : lex_commit pipeline (lxs (cur :: vs)) i j (op_texts ops) = Some lx).
    { change (lxs (cur :: vs)) with (slx (zt_sys cur) :: lxs vs) in *. unfold lex_commit. rewrite Li, Lj, <- El, Lo. reflexivity. }
    destruct (commit_serial pipeline _ _ _ _ _ Hch Ec) as (lc & ls & le & H1 & H2 & H3 & Hlx & Dlx & Rlx & _).
    rewrite Li in H2. rewrite Lj in H3. cbn in H1. injection H1 as <-. injection H2 as <-. injection H3 as <-.
    destruct (commit_own pipeline _ _ _ _ _ _ _ Hch Ec Li Lj) as (Bo & Go & Gsn & Bb).
    pose proof (proj1 Rlx) as Gcur.
    destruct Vc as (Ic & Sc & Nc & Tc & Xc & (T & HT & HTl)). destruct Vs as (Is & Ss & Ns & Tsn & Xs & _).
    assert (Hlx' : lx = lex_run pipeline (map LText (T ++ op_texts ops))).
    { rewrite Hlx, HTl. unfold lex_run. rewrite map_app, fold_left_app. apply lex_texts_steps. }
    assert (HT' : incl (T ++ op_texts ops) TT) by (intros t Ht; apply in_app_or in Ht as [Ht|Ht]; auto).
    assert (Slx : small lx) by (rewrite Hlx'; apply dense_small, HT').
    assert (Ib : inv (zt_sys begin) (docs snap)).
    { apply (sysinv_lex rnd fr _ _ (slx (zt_sys begin)) Is); [exact Bb|]. split; auto. }
    destruct (exec_ok ops (zt_sys begin) (docs snap) Ib Ss Gs Gn) as (own' & Ex' & Io & To).
    { rewrite (lex_hist_texts ops Gn), <- lex_texts_steps. refine (small_grows _ _ Go Slx). }
    rewrite Ex in Ex'. injection Ex' as <-. change (six (zt_sys begin)) with (six (zt_sys snap)) in To.
    set (Do := fold_left (docs_step pipeline) ops (docs snap)) in *. cbn [zt_gen begin zt_begin] in E.
    assert (Go' : grows (slx own) lx) by (rewrite Lo; exact Go). clear Go. rename Go' into Go.
    assert (Sown : docs_sound Do) by (apply docs_sounds; assumption).
    assert (Xown : forall d ws, get Do d = Some ws -> exists t, In t TT /\ words t = ws) by (apply docs_texts; assumption).
    pose proof (count_clears_0 ops) as [Cn C0].
    (* the three cases *)
    assert (Hcases : exists Dm, inv (zt_sys st) Dm /\ slx (zt_sys st) = lx /\ zt_gen cur <= zt_gen st /\
      (cleared_since_t snap cur = false -> clears_t ops = false -> forall w, ~ In w (vocabulary (docs snap)) -> In w (vocabulary (docs cur)) ->
         ~ In w (vocabulary Do)) /\
      committed (cleared_since_t snap cur) (clears_t ops) (docs snap) (docs cur) Do Dm /\
      (zt_gen st = 0 -> totaldoclen (six (zt_sys st)) = tw Dm) /\
      docs_sound Dm /\ (forall d ws, get Dm d = Some ws -> exists t, In t TT /\ words t = ws) /\
      (clears_t ops = false -> totaldoclen (six (zt_sys st)) = totaldoclen (six (zt_sys cur)) + (tw Do - tw (docs snap)))).
    { unfold cleared_since_t. destruct (zt_gen cur =? zt_gen snap) eqn:Gc; cbn [negb].
      - destruct (zt_gen snap + count_clears ops =? zt_gen snap) eqn:Gb.
        + assert (Hcl : clears_t ops = false) by (apply C0; lia). rewrite Hcl.
          destruct (ix3 same _ _ _ _) as [ix|] eqn:E3; [|discriminate]. injection E as <-. cbn [zt_sys zt_gen].
          destruct (sys_merge (zt_sys snap) (zt_sys cur) own lx ix _ _ _ _ Is Ic Io Ss Sc Sown (proj1 Dlx) Gsn Gcur Go E3) as (Dm & Im & Hm & Ht).
          exists Dm. split; [exact Im|]. split; [reflexivity|]. split; [lia|].
          split; [intros _ _ w N1 N2 N3; exact (new_word_clash _ _ _ lx ix _ _ _ _ w Is Ic Io (proj1 Dlx) Gsn Gcur Go E3 N1 N2 N3)|].
          assert (Hcases : forall d, get Dm d = get (docs cur) d \/ get Dm d = get Do d).
          { intros d. destruct (Hm d) as [[_ ->]|(_ & _ & ->)]; auto. }
          split; [|split; [|split; [|split]]].
          * intros d. destruct (Hm d) as [[E1 E2]|(E1 & E2 & E3')].
            -- split; [intros E4; congruence|intros _; split; assumption].
            -- split; [intros _; exact E3'|intros E4; destruct (E4 E2)].
          * intros G0. cbn [six]. rewrite Ht, (tw_merged _ _ _ _ Hm). specialize (To Hcl). rewrite (Tc ltac:(lia)) in *. rewrite (Tsn G0) in *. lia.
          * intros d ws Hd. destruct (Hcases d) as [E1|E1]; rewrite E1 in Hd; eauto.
          * intros d ws Hd. destruct (Hcases d) as [E1|E1]; rewrite E1 in Hd; eauto.
          * intros _. cbn [six]. rewrite Ht. specialize (To Hcl). lia.
        + injection E as <-. cbn [zt_sys zt_gen]. assert (Hcl : clears_t ops = true).
          { destruct (clears_t ops); [reflexivity|]. assert (count_clears ops = 0) by (apply C0; reflexivity). lia. }
          rewrite Hcl. exists Do. split.
          { apply (inv_total _ (mkSys lx (six own))). exact (sysinv_lex rnd fr _ _ lx Io (proj1 Dlx) Go). }
          split; [reflexivity|]. split; [lia|]. split; [discriminate|]. split; [reflexivity|]. split; [intros ?; exfalso; lia|]. split; [exact Sown|]. split; [exact Xown|discriminate].
      - destruct (zt_gen snap + count_clears ops =? zt_gen snap) eqn:Gb; [|discriminate]. injection E as <-. cbn [zt_sys zt_gen].
        assert (Hcl : clears_t ops = false) by (apply C0; lia). rewrite Hcl. exists (docs cur). split.
        { apply (inv_total _ (mkSys lx (six (zt_sys cur)))). exact (sysinv_lex rnd fr _ _ lx Ic (proj1 Dlx) Gcur). }
        split; [reflexivity|]. split; [lia|]. split; [discriminate|]. split; [reflexivity|].
        assert (Htt : totaldoclen (set_totaldoclen (totaldoclen (six (zt_sys cur)) + totaldoclen (six own) - totaldoclen (six (zt_sys snap))) (six (zt_sys cur))) = totaldoclen (six (zt_sys cur)) + (tw Do - tw (docs snap))).
        { cbn. specialize (To Hcl). lia. }
        split; [|split; [exact Sc|split; [exact Xc|intros _; exact Htt]]].
        intros G0. exfalso. lia. }
    destruct Hcases as (Dm & Im & Elx & Hgen & Hnew & Hco & Htot & Sm & Xm & Htt). pose proof (documents_R _ _ Im) as Hdm.
    split; [|split; [|split]].
    - unfold effect. rewrite Hdm, Elx. split; [exact Hnew|]. split; [exact Hlx|]. split; [exact Hco|exact Htt].
    - unfold vinv. rewrite Hdm. split; [exact Im|]. split; [exact Sm|]. split; [lia|]. split; [exact Htot|]. split; [exact Xm|].
      exists (T ++ op_texts ops). split; [exact HT'|]. rewrite Elx. exact Hlx'.
    - unfold lxs. cbn [map]. rewrite Elx. eapply chain_commit; eauto.
    - intros c x [= <-] [<-|Hin]; [lia|]. pose proof (Hg cur x eq_refl Hin). lia.
  Qed.

  Definition vsinv (vs : list (ztext V)) : Prop := lex_chain (lxs vs) /\ Forall vinv vs /\ top_gen vs /\ vs <> [].
  Lemma vsinv_new : vsinv [zt_new].
  Proof.
    split; [|split; [|split]]; [|constructor; [apply vinv_new|constructor]| |discriminate].
    - cbn. auto using dense_new.
    - intros c x [= <-] [<-|[]]. lia.
  Qed.
  Lemma vsinv_step vs t : vsinv vs -> good_ops (snd t) -> vsinv (zt_step same pipeline index_doc unindex_doc vs t).
  Proof.
    intros (Hc & Hv & Hg & Hn) Ht. unfold zt_step. destruct (commit vs _ _ _) as [st|] eqn:E; [|split; auto].
    destruct (commit_effect _ _ _ _ _ Hc Hv Hg Ht E) as (cur & snap & _ & _ & _ & Hst & Hc' & Hg').
    split; [exact Hc'|]. split; [constructor; assumption|]. split; [exact Hg'|discriminate].
  Qed.
  Lemma vsinv_run schedule : Forall (fun t => good_ops (snd t)) schedule -> vsinv (zt_run same pipeline index_doc unindex_doc schedule).
  Proof.
    intros H. unfold zt_run. assert (G : forall vs, vsinv vs -> vsinv (fold_left (zt_step same pipeline index_doc unindex_doc) schedule vs)).
    { induction H as [|t l Ht Hl IH]; intros vs Hvs; [exact Hvs|]. cbn [fold_left]. apply IH, vsinv_step; assumption. }
    apply G, vsinv_new.
  Qed.

  (** ** A transaction that began with the latest version *)
  Lemma post3_alone (k : Z) x y : post3 same x x y = Some y.
  Proof. clear - same_eq. unfold post3. rewrite (proj2 (opt_same_eq _ (post_same_eq same same_eq) x x) eq_refl). reflexivity. Qed.
  Lemma ix3_alone o b : ix3 same (totaldoclen b) o o b = Some b.
  Proof.
    clear - same_eq. unfold ix3. rewrite (map3_alone (fun _ => post3 same)) by (intros; apply post3_alone; exact 0).
    rewrite (map3_alone (fun _ => key3 same)) by (intros k x y; unfold key3; rewrite (proj2 (opt_same_eq _ same_eq x x) eq_refl); reflexivity).
    rewrite (map3_alone (fun _ => key3 eqb)).
    2:{ intros k x y; unfold key3. rewrite (proj2 (opt_same_eq eqb (fun x y => eqb_eq x y) x x) eq_refl). reflexivity. }
    destruct b as [wi dw ds wc dc tot]. cbn. do 2 f_equal; lia.
  Qed.
  Lemma commit_alone vs j ops cur : vsinv vs -> good_ops ops -> hd_error vs = Some cur ->
    commit vs 0 j ops = zt_exec pipeline index_doc unindex_doc ops cur.
  Proof.
    intros (Hch & Hv & Hg & _) (Gs & Gn & Gi). destruct vs as [|c vs]; [discriminate|]. intros [= ->].
    unfold zt_commit. cbn [Nat.min nth_error]. assert (Hb : zt_begin cur cur = cur).
    { destruct cur as [[[wi wo lc] ix] g]. reflexivity. }
    rewrite Hb. unfold zt_exec. destruct (exec ops (zt_sys cur)) as [own [[]|e]] eqn:Ex; [|reflexivity].
    pose proof (exec_lex ops _ _ _ Ex) as Lo. rewrite (lex_hist_texts ops Gn), <- lex_texts_steps in Lo.
    destruct (lex_commits pipeline (lxs (cur :: vs)) 0 j (op_texts ops) (slx (zt_sys cur)) (slx (zt_sys cur)) (slx (zt_sys cur)) Hch eq_refl eq_refl eq_refl) as [lx El].
    { intros _. split; [reflexivity|auto]. }
    destruct (commit_serial pipeline _ _ _ _ _ Hch El) as (lc & _ & _ & H1 & _ & _ & Hlx & _). injection H1 as <-.
    unfold lex_commit in El. cbn [Nat.min nth_error lxs map] in El.
    assert (Hlb : lex_begin (slx (zt_sys cur)) (slx (zt_sys cur)) = slx (zt_sys cur)) by (destruct (slx (zt_sys cur)); reflexivity).
    rewrite Hlb, <- Lo in El. rewrite <- Lo in Hlx. subst lx.
    unfold zt_merge. cbn [zt_sys zt_gen]. rewrite El, Z.eqb_refl.
    replace (totaldoclen (six (zt_sys cur)) + totaldoclen (six own) - totaldoclen (six (zt_sys cur))) with (totaldoclen (six own)) by lia.
    assert (Hs : mkSys (slx own) (six own) = own) by (destruct own; reflexivity).
    destruct (zt_gen cur + count_clears ops =? zt_gen cur) eqn:Eg.
    - rewrite ix3_alone, Hs. do 2 f_equal. lia.
    - do 2 f_equal. destruct own as [lx [wi dw ds wc dc tot]]. reflexivity.
  Qed.
End Sys.
