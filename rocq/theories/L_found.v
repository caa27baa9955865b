(** * Lemmas about executing query trees on text indexes *)
From Verif Require Import L_setops L_textapi L_costext L_weight M_tree S_tree L_query L_tree L_treeex S_score S_text S_textapi S_textindex
  M_textindex Arith SMap Ord.

(** ** All leaves of a tree are searched *)
Section Leaves.
  Context {F : Type} {AF : Arith F}.
  Local Notation wmap := (smap Z F).
  Variable search : str -> res (option wmap).
  Variable search_phrase : list str -> res (option wmap).
  Variable search_glob : str -> res (option wmap).
  Local Notation exec := (executeQuery search search_phrase search_glob).

  Lemma and_loop_inv l L N p : and_loop search search_phrase search_glob l L N = Ok p ->
    Forall (fun x => exists r, exec (strip x) = Ok r) l.
  Proof.
    revert L N. induction l as [|x l IH]; intros L N H; [constructor|].
    destruct x; cbn [and_loop] in H; apply bind_ok in H as (r & Hr & H); (constructor; [exists r; exact Hr|exact (IH _ _ H)]).
  Qed.
  Lemma or_loop_inv l L p : or_loop search search_phrase search_glob l L = Ok p -> Forall (fun x => exists r, exec x = Ok r) l.
  Proof.
    revert L. induction l as [|x l IH]; intros L H; [constructor|].
    cbn [or_loop] in H; apply bind_ok in H as (r & Hr & H). constructor; [exists r; exact Hr|exact (IH _ H)].
  Qed.
  Lemma tree_leaves_ok n r : exec n = Ok r -> forall x, In x (leaves n) -> exists r', exec x = Ok r'.
  Proof.
    intros Hn. assert (Hn' : exec (strip n) = Ok r) by (destruct n; try exact Hn; discriminate). clear Hn. revert r Hn'.
    induction n as [w|ws|w|m IH|l IH|l IH] using node_induction; cbn [strip]; intros r Hr x Hx.
    1-3: destruct Hx as [<-|[]]; eauto.
    - apply (IH r); [destruct m; try exact Hr; discriminate|exact Hx].
    - rewrite exec_NAnd in Hr. apply bind_ok in Hr as ([L N] & Hl & _). apply and_loop_inv in Hl.
      cbn [leaves] in Hx. apply in_flat_map in Hx as (y & Hy & Hx). rewrite Forall_forall in IH, Hl.
      destruct (Hl y Hy) as (r' & Hr'). exact (IH y Hy r' Hr' x Hx).
    - rewrite exec_NOr in Hr. apply bind_ok in Hr as (L & Hl & _). apply or_loop_inv in Hl.
      cbn [leaves] in Hx. apply in_flat_map in Hx as (y & Hy & Hx). rewrite Forall_forall in IH, Hl.
      destruct (Hl y Hy) as (r' & Hr'). apply (IH y Hy r'); [destruct y; try exact Hr'; discriminate|exact Hx].
  Qed.
End Leaves.
Lemma positive_leaves_in n x : In x (positive_leaves n) -> In x (leaves n).
Proof.
  induction n as [w|ws|w|m IH|l IH|l IH] using node_induction; cbn [positive_leaves leaves]; auto; [intros []| |].
  all: intros Hx; apply in_flat_map in Hx as (y & Hy & Hx); apply in_flat_map; exists y; split; [exact Hy|];
    rewrite Forall_forall in IH; exact (IH y Hy Hx).
Qed.

(** ** What a text index has to do *)
Section Found.
  Context {V F : Type} {AF : Arith F}.
  Variable pipeline : list elem.
  Local Notation words t := (text_words pipeline t).
  Variable search_wids : bindex V -> list Z -> res (list (smap Z F * F)).
  Variable s : sys V.
  Variable D : smap Z (list str).

  Record search_ok : Prop := {
    so_search : forall t,
      (words t = [] -> search pipeline search_wids s t = Ok None) /\
      (words t <> [] -> exists m, search pipeline search_wids s t = Ok (Some m) /\
         forall d, mem d m = true <-> exists ws, get D d = Some ws /\ has_some (words t) ws);
    so_phrase : forall t, exists m, search_phrase pipeline search_wids s t = Ok m /\
       forall d, mem d m = true <-> exists ws, get D d = Some ws /\ words t <> [] /\ phrase_found (slx s) (words t) ws;
    so_glob : forall p, good_glob p -> no_newline (slx s) -> exists m, search_glob search_wids s p = Ok m /\
       forall d, mem d m = true <-> exists ws w, get D d = Some ws /\ In w ws /\ glob_match p w }.
  Record scores_ok (c : str -> list str -> F) : Prop := {
    sc_search : forall t m d ws, search pipeline search_wids s t = Ok (Some m) -> get D d = Some ws ->
      get m d = if existsb (contains ws) (words t) then Some (words_score c (words t) ws) else None;
    sc_phrase : forall t m d ws v, search_phrase pipeline search_wids s t = Ok m -> get D d = Some ws -> get m d = Some v ->
      v = words_score c (words t) ws;
    sc_glob : forall p, good_glob p -> no_newline (slx s) -> exists m q, search_glob search_wids s p = Ok m /\ NoDup q /\
      (forall w, In w q <-> In w (lex_words (slx s)) /\ glob_match p w) /\
      forall d ws, get D d = Some ws -> get m d = if existsb (contains ws) q then Some (words_score c q ws) else None }.

  Hypothesis SO : search_ok.
  Local Notation exec := (execute pipeline search_wids s).
  Local Notation sat' := (satisfies pipeline (phrase_found (slx s))).

  Definition index_found (x : node) : option (smap Z F) := match exec x with Ok r => r | Raise _ => None end.
  Lemma index_found_ok n r : exec n = Ok r -> forall x, In x (leaves n) -> exec x = Ok (index_found x).
  Proof.
    intros Hr x Hx. destruct (tree_leaves_ok _ _ _ n r Hr x Hx) as (r' & Hr'). unfold index_found.
    change (exec x = Ok r') in Hr'. rewrite Hr'. reflexivity.
  Qed.

  Definition leaf_fine (x : node) : Prop := exists r, exec x = Ok r /\ (r = None <-> stopped pipeline x) /\
    forall m, r = Some m -> forall d, mem d m = true <-> exists ws, get D d = Some ws /\ sat' ws x.
  Lemma leaf_ok x : match x with NGlob p => good_glob p /\ no_newline (slx s) | NAtom _ | NPhrase _ => True | _ => False end -> leaf_fine x.
  Proof.
    unfold leaf_fine. destruct x as [w|q|p| | |]; cbn [execute executeQuery stopped satisfies]; try contradiction; intros Hx.
    - destruct (so_search SO (TxStr w)) as [H1 H2]. destruct (words (TxStr w)) as [|w0 l] eqn:E.
      + exists None. splits; [exact (H1 eq_refl)|tauto|discriminate].
      + destruct H2 as (m & Em & Hm); [discriminate|]. exists (Some m). splits; [exact Em|split; discriminate|]. intros m' [= <-]. exact Hm.
    - destruct (so_phrase SO (TxList q)) as (m & Em & Hm). exists (Some m). unfold execute. cbn [executeQuery]. rewrite Em.
      splits; [reflexivity|split; [discriminate|intros []]|]. intros m' [= <-]. exact Hm.
    - destruct Hx as [Hg Hn]. destruct (so_glob SO p Hg Hn) as (m & Em & Hm). exists (Some m). unfold execute. cbn [executeQuery]. rewrite Em.
      splits; [reflexivity|split; [discriminate|intros []]|]. intros m' [= <-] d. rewrite Hm. split.
      + intros (ws & w & Ed & Hw & Hp). eauto.
      + intros (ws & Ed & w & Hw & Hp). eauto.
  Qed.
  Lemma leaf_found x : leaf_fine x ->
    exec x = Ok (index_found x) /\ (index_found x = None <-> stopped pipeline x) /\
    forall m, index_found x = Some m -> forall d, mem d m = true <-> exists ws, get D d = Some ws /\ sat' ws x.
  Proof. intros (r & Hr & H). unfold index_found. rewrite Hr. auto. Qed.

  (** ** Satisfaction *)
  Lemma satisfies_and ws l : sat' ws (NAnd l) <->
    (exists x, In x l /\ is_NotNode x = false /\ ~ stopped pipeline x) /\ Forall (fun x => stopped pipeline x \/ sat' ws x) l.
  Proof.
    cbn [satisfies]. apply and_iff_compat_l. induction l as [|x l IH]; [split; constructor|]. rewrite IH. split.
    - intros [H1 H2]. constructor; assumption.
    - intros H. inversion H; auto.
  Qed.
  Lemma satisfies_or ws l : sat' ws (NOr l) <-> exists x, In x l /\ sat' ws x.
  Proof.
    cbn [satisfies]. induction l as [|x l IH].
    - split; [intros []|intros (x & [] & _)].
    - rewrite IH. split.
      + intros [H|(y & Hy & H)]; [exists x; split; [left; reflexivity|exact H]|exists y; split; [right; exact Hy|exact H]].
      + intros (y & [<-|Hy] & H); [left; exact H|right; exists y; auto].
  Qed.
  Lemma neutral_stopped n : (forall x, In x (leaves n) -> leaf_fine x) -> neutral index_found n <-> stopped pipeline n.
  Proof.
    intros Hl. destruct n; cbn [neutral]; try (cbn [stopped]; tauto);
      (destruct (leaf_found _ (Hl _ (or_introl eq_refl))) as (_ & H & _); exact H).
  Qed.
  Lemma leaf_sat x d : leaf_fine x ->
    (exists m v, index_found x = Some m /\ get m d = Some v) <-> exists ws, get D d = Some ws /\ sat' ws x.
  Proof.
    intros Hx. destruct (leaf_found x Hx) as (_ & Hn & Hf). split.
    - intros (m & v & Em & Ev). apply (Hf m Em d). apply mem_get. eauto.
    - intros (ws & Ed & Hs). destruct (index_found x) as [m|] eqn:Em.
      + assert (H : mem d m = true) by (apply (Hf m eq_refl d); eauto). apply mem_get in H as [v Hv]. eauto.
      + exfalso. assert (H : stopped pipeline x) by (apply Hn; reflexivity). destruct x; cbn [stopped satisfies] in H, Hs; try contradiction.
        destruct Hs as (w' & Hw & _). rewrite H in Hw. destruct Hw.
  Qed.
  Lemma sat_satisfies n d ws : get D d = Some ws -> (forall x, In x (leaves n) -> leaf_fine x) ->
    sat index_found d n <-> sat' ws n.
  Proof.
    intros Ed. assert (Hleaf : forall x, leaf_fine x -> (exists m v, index_found x = Some m /\ get m d = Some v) <-> sat' ws x).
    { intros x Hx. rewrite (leaf_sat x d Hx). split; [|eauto]. intros (ws' & Ed' & H). congruence. }
    induction n as [w|q|p|m IH|l IH|l IH] using node_induction; intros Hl.
    1-3: exact (Hleaf _ (Hl _ (or_introl eq_refl))).
    - cbn [sat satisfies]. rewrite IH by exact Hl. reflexivity.
    - rewrite sat_and, satisfies_and.
      assert (Hin : forall x, In x l -> forall y, In y (leaves x) -> leaf_fine y)
        by (intros x Hx y Hy; apply Hl; cbn [leaves]; apply in_flat_map; eauto).
      rewrite Forall_forall in IH. apply ZifyClasses.and_morph.
      + split; intros (x & Hx & Hn & H); exists x; splits; auto; intros Hs; apply H, (neutral_stopped x (Hin x Hx)); exact Hs.
      + rewrite !Forall_forall. split; intros H x Hx; specialize (H x Hx);
          rewrite (neutral_stopped x (Hin x Hx)), (IH x Hx (Hin x Hx)) in *; exact H.
    - rewrite sat_or, satisfies_or.
      assert (Hin : forall x, In x l -> forall y, In y (leaves x) -> leaf_fine y)
        by (intros x Hx y Hy; apply Hl; cbn [leaves]; apply in_flat_map; eauto).
      rewrite Forall_forall in IH. split; intros (x & Hx & H); exists x; (split; [exact Hx|]); apply (IH x Hx (Hin x Hx)); exact H.
  Qed.
  (** a document that is not in the index satisfies no executable tree *)
  Lemma sat_indexed n d : executable n -> (forall x, In x (leaves n) -> leaf_fine x) -> sat index_found d n ->
    exists ws, get D d = Some ws.
  Proof.
    induction n as [w|q|p|m IH|l IH|l IH] using node_induction; intros He Hl Hs.
    1-3: apply (leaf_sat _ d (Hl _ (or_introl eq_refl))) in Hs as (ws & Ed & _); eauto.
    - destruct He.
    - apply exec_and in He as [_ He]. apply sat_and in Hs as [(x & Hx & Hn & Hne) Hs]. rewrite Forall_forall in *.
      destruct (Hs x Hx) as [Hs'|Hs']; [contradiction|]. apply (IH x Hx); [|intros y Hy; apply Hl; cbn [leaves]; apply in_flat_map; eauto|exact Hs'].
      specialize (He x Hx). destruct x; try exact He. discriminate.
    - apply exec_or in He as [_ He]. apply sat_or in Hs as (x & Hx & Hs). rewrite Forall_forall in *.
      apply (IH x Hx); [exact (He x Hx)|intros y Hy; apply Hl; cbn [leaves]; apply in_flat_map; eauto|exact Hs].
  Qed.

  Lemma execute_docs n : executable n -> (forall p, In (NGlob p) (leaves n) -> good_glob p /\ no_newline (slx s)) ->
    exists r, exec n = Ok r /\ (r = None <-> stopped pipeline n) /\
      forall m, r = Some m -> forall d, mem d m = true <-> exists ws, get D d = Some ws /\ sat' ws n.
  Proof.
    intros He Hg. assert (Hl : forall x, In x (leaves n) -> leaf_fine x).
    { intros x Hx. apply leaf_ok. pose proof (leaves_leaf n x Hx) as H. destruct x; auto. }
    destruct (tree_documents (fun w => search pipeline search_wids s (TxStr w)) (fun ws => rmap Some (search_phrase pipeline search_wids s (TxList ws)))
      (fun p => rmap Some (search_glob search_wids s p)) n index_found He) as (r & Hr & Hn & Hd).
    { intros x Hx. apply (leaf_found x (Hl x Hx)). }
    exists r. splits; [exact Hr| |].
    - rewrite Hn. apply neutral_stopped, Hl.
    - intros m Hm d. rewrite (Hd m Hm d). split.
      + intros Hs. destruct (sat_indexed n d He Hl Hs) as (ws & Ed). exists ws. split; [exact Ed|]. apply (sat_satisfies n d ws Ed Hl). exact Hs.
      + intros (ws & Ed & Hs). apply (sat_satisfies n d ws Ed Hl). exact Hs.
  Qed.

  (** ** Scores *)
  Context {XF : ExactArith F}.
  Lemma sat_positive found d n : executable n -> sat (F := F) found d n ->
    exists x m v', In x (positive_leaves n) /\ found x = Some m /\ get m d = Some v'.
  Proof.
    induction n as [w|q|p|m IH|l IH|l IH] using node_induction; intros He Hs.
    1-3: destruct Hs as (m & v & Em & Ev); eexists _, m, v; splits; [left; reflexivity|exact Em|exact Ev].
    - destruct He.
    - apply exec_and in He as [_ He]. apply sat_and in Hs as [(x & Hx & Hn & Hne) Hs]. rewrite Forall_forall in *.
      destruct (Hs x Hx) as [Hs'|Hs']; [contradiction|].
      destruct (IH x Hx) as (y & m & v & Hy & H); [specialize (He x Hx); destruct x; try exact He; discriminate|exact Hs'|].
      exists y, m, v. split; [|exact H]. cbn [positive_leaves]. apply in_flat_map. eauto.
    - apply exec_or in He as [_ He]. apply sat_or in Hs as (x & Hx & Hs). rewrite Forall_forall in *.
      destruct (IH x Hx (He x Hx) Hs) as (y & m & v & Hy & H).
      exists y, m, v. split; [|exact H]. cbn [positive_leaves]. apply in_flat_map. eauto.
  Qed.
  Lemma execute_indexed n m d v : executable n -> (forall p, ~ In (NGlob p) (positive_leaves n)) ->
    exec n = Ok (Some m) -> get m d = Some v -> exists ws, get D d = Some ws.
  Proof.
    intros He Hg Hr Ev. pose proof (index_found_ok n _ Hr) as Hf.
    destruct (tree_documents (fun w => search pipeline search_wids s (TxStr w)) (fun ws => rmap Some (search_phrase pipeline search_wids s (TxList ws)))
      (fun p => rmap Some (search_glob search_wids s p)) n index_found He Hf) as (r & Hr' & _ & Hd).
    change (exec n = Ok r) in Hr'. rewrite Hr in Hr'. injection Hr' as <-.
    assert (Hs : sat index_found d n) by (apply (Hd m eq_refl d), mem_get; eauto).
    destruct (sat_positive index_found d n He Hs) as (x & m' & v' & Hx & Em & Ev').
    assert (Hfine : leaf_fine x).
    { apply leaf_ok. pose proof (leaves_leaf n x (positive_leaves_in _ _ Hx)) as H. destruct x; auto. destruct (Hg _ Hx). }
    destruct (leaf_found x Hfine) as (_ & _ & Hin). assert (Hm : mem d m' = true) by (apply mem_get; eauto).
    apply (Hin m' Em) in Hm as (ws & Ed & _). eauto.
  Qed.

  Variable c : str -> list str -> F.
  Hypothesis SC : scores_ok c.

  Definition leaf_words (x : node) : list str :=
    match x with NAtom w => words (TxStr w) | NPhrase q => words (TxList q) | NGlob p => words (TxStr p) | _ => [] end.
  Lemma leaf_words_terms n : flat_map leaf_words (positive_leaves n) = flat_map (text_words pipeline) (map term_text (terms n)).
  Proof.
    induction n as [w|q|p|m IH|l IH|l IH] using node_induction; cbn [positive_leaves terms map flat_map term_text leaf_words];
      rewrite ?app_nil_r; try reflexivity.
    all: induction IH as [|x l Hx Hl IHl]; [reflexivity|]; cbn [flat_map]; rewrite map_app, !flat_map_app, Hx, IHl; reflexivity.
  Qed.
  Lemma execute_words n m d ws v : executable n -> (forall p, ~ In (NGlob p) (positive_leaves n)) ->
    exec n = Ok (Some m) -> get D d = Some ws -> get m d = Some v ->
    from_words ws c v (flat_map (text_words pipeline) (map term_text (terms n))).
  Proof.
    intros He Hg Hr Ed Ev. pose proof (index_found_ok n _ Hr) as Hf.
    destruct (tree_scores (fun w => search pipeline search_wids s (TxStr w)) (fun ws => rmap Some (search_phrase pipeline search_wids s (TxList ws)))
      (fun p => rmap Some (search_glob search_wids s p)) XF n index_found He Hf) as (r & Hr' & _ & Hd).
    change (exec n = Ok r) in Hr'. rewrite Hr in Hr'. injection Hr' as <-. rewrite (Hd m eq_refl d) in Ev.
    rewrite <- leaf_words_terms. apply (tree_words index_found d ws c leaf_words n); [|exact Ev].
    intros x Hx m' v' Em Ev'. pose proof (Hf x (positive_leaves_in _ _ Hx)) as Hex. rewrite Em in Hex.
    pose proof (leaves_leaf n x (positive_leaves_in _ _ Hx)) as Hleaf.
    destruct x as [w|q|p| | |]; try contradiction; [| |destruct (Hg p Hx)]; unfold execute in Hex; cbn [executeQuery leaf_words] in *.
    - pose proof (sc_search c SC (TxStr w) m' d ws Hex Ed) as H. rewrite Ev' in H.
      destruct (existsb (contains ws) (words (TxStr w))) eqn:E; [|discriminate]. split; [congruence|reflexivity].
    - destruct (search_phrase pipeline search_wids s (TxList q)) as [mm|] eqn:Ep; [|discriminate]. injection Hex as ->.
      split; [exact (sc_phrase c SC (TxList q) m' d ws v' Ep Ed Ev')|].
      destruct (so_phrase SO (TxList q)) as (m2 & Em2 & Hm2). rewrite Ep in Em2. injection Em2 as <-.
      assert (Hd' : mem d m' = true) by (apply mem_get; eauto). apply Hm2 in Hd' as (ws' & Ed' & Hne & Hall & _).
      assert (ws' = ws) by congruence. subst ws'. destruct (words (TxList q)) as [|w0 l]; [contradiction|].
      cbn [existsb]. apply orb_true_iff. left. apply existsb_eqb_In. apply Hall. left. reflexivity.
  Qed.
End Found.

(** ** The two indexes *)
Lemma okapi_search_ok {F} {AF : Arith F} {SF : SafeArith F} (K1 B : F) {OF : OkapiSafe K1 B} pipeline h :
  history_ok pipeline h -> texts_small pipeline h ->
  search_ok pipeline (python_search_wids K1 B) (okapi_state pipeline h) (docs_of pipeline h).
Proof.
  intros H Hs. constructor.
  - intros t. exact (okapi_search_docs K1 B pipeline h t H Hs).
  - intros t. destruct (text_words pipeline t) as [|w0 l0] eqn:E.
    + destruct (okapi_phrase_sound K1 B pipeline h t H Hs) as (m & Em & Hm). exists m. split; [exact Em|]. intros d. split.
      * intros Hd. destruct (Hm d Hd) as [Hn _]. contradiction.
      * intros (ws & _ & Hn & _). contradiction.
    + destruct (exists_last (l := w0 :: l0) ltac:(discriminate)) as (init & l & El). rewrite El in E.
      destruct (okapi_phrase_iff K1 B pipeline h t init l H Hs E) as (m & Em & Hm). exists m. split; [exact Em|]. intros d.
      rewrite Hm. rewrite E, El. split.
      * intros (ws & Ed & Ha & l' & Hr & Hl). exists ws. splits; [exact Ed|destruct init; discriminate|]. split; [exact Ha|]. exists init, l, l'. auto.
      * intros (ws & Ed & _ & Ha & i' & l1 & l' & Eq & Hr & Hl). apply app_inj_tail in Eq as [<- <-]. exists ws. splits; eauto.
  - intros p (prefix & c & rest & -> & Hne & Hp & Hc) Hn. exact (okapi_glob_docs K1 B pipeline h prefix c rest H Hs Hne Hp Hc Hn).
Qed.
Lemma okapi_scores_ok {F} {AF : Arith F} {SF : SafeArith F} (K1 B : F) {OF : OkapiSafe K1 B} {XF : ExactArith F} pipeline h :
  history_ok pipeline h -> texts_small pipeline h ->
  scores_ok pipeline (python_search_wids K1 B) (okapi_state pipeline h) (docs_of pipeline h) (okapi_c K1 B pipeline h).
Proof.
  intros H Hs. constructor.
  - intros t m d ws. exact (okapi_search_scores K1 B pipeline h t m d ws H Hs).
  - intros t m d ws v. exact (okapi_phrase_scores K1 B pipeline h t m d ws v H Hs).
  - intros p (prefix & c & rest & -> & Hne & Hp & Hc) Hn. exact (okapi_glob_scores K1 B pipeline h prefix c rest H Hs Hne Hp Hc Hn).
Qed.
Lemma cos_search_ok {F} {AF : Arith F} {SF : SafeArith F} {QF : SoundEq F} pipeline h : history_ok pipeline h ->
  search_ok pipeline cos_search_wids (cos_state (F := F) pipeline h) (docs_of pipeline h).
Proof.
  intros H. constructor.
  - intros t. exact (cos_search_docs pipeline h t H).
  - intros t. destruct (text_words pipeline t) as [|w0 l0] eqn:E.
    + destruct (cos_phrase_sound (F := F) pipeline h t H) as (m & Em & Hm). exists m. split; [exact Em|]. intros d. split.
      * intros Hd. destruct (Hm d Hd) as [Hn _]. contradiction.
      * intros (ws & _ & Hn & _). contradiction.
    + destruct (exists_last (l := w0 :: l0) ltac:(discriminate)) as (init & l & El). rewrite El in E.
      destruct (cos_phrase_iff (F := F) pipeline h t init l H E) as (m & Em & Hm). exists m. split; [exact Em|]. intros d.
      rewrite Hm. rewrite E, El. split.
      * intros (ws & Ed & Ha & l' & Hr & Hl). exists ws. splits; [exact Ed|destruct init; discriminate|]. split; [exact Ha|]. exists init, l, l'. auto.
      * intros (ws & Ed & _ & Ha & i' & l1 & l' & Eq & Hr & Hl). apply app_inj_tail in Eq as [<- <-]. exists ws. splits; eauto.
  - intros p (prefix & c & rest & -> & Hne & Hp & Hc) Hn. exact (cos_glob_docs pipeline h prefix c rest H Hne Hp Hc Hn).
Qed.
Lemma cos_scores_ok {F} {AF : Arith F} {SF : SafeArith F} {XF : ExactArith F} pipeline h : history_ok pipeline h ->
  scores_ok pipeline cos_search_wids (cos_state (F := F) pipeline h) (docs_of pipeline h) (cosine (docs_of pipeline h)).
Proof.
  intros H. constructor.
  - intros t m d ws. exact (cos_search_scores pipeline h t m d ws H).
  - intros t m d ws v. exact (cos_phrase_scores pipeline h t m d ws v H).
  - intros p (prefix & c & rest & -> & Hne & Hp & Hc) Hn. exact (cos_glob_scores pipeline h prefix c rest H Hne Hp Hc Hn).
Qed.
