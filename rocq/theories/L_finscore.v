(** * Every score that a query returns is bounded *)
From Verif Require Import L_lexicon L_setops L_baseindex L_textsys L_okapi L_cosine L_search L_okasearch L_cossearch L_textapi L_costext L_weight
  L_treeex L_parser M_okapi M_cosine M_tree S_tree L_query L_tree S_score S_text S_textapi S_textindex M_textindex L_found L_textindex S_parser S_setops S_finite L_bound Arith SMap Ord.

Lemma zsum_ones {A} (P : Z -> A -> Prop) (L : list A) : Forall (P 1) L -> exists cs, Forall2 P cs L /\ zsum cs = Zlen L.
Proof.
  induction 1 as [|x L Hx HL (cs & H1 & H2)]; [exists []; split; [constructor|reflexivity]|]. exists (1 :: cs). split; [constructor; assumption|].
  cbn [zsum fold_right]. fold (zsum cs). rewrite H2. unfold Zlen. cbn [length]. lia.
Qed.
Lemma filter_full {A} (f : A -> bool) l : Zlen l = Zlen (filter f l) -> forall x, In x l -> f x = true.
Proof.
  unfold Zlen. induction l as [|y l IH]; intros H x []; cbn [filter] in H.
  - subst y. destruct (f x) eqn:E; [reflexivity|]. exfalso. cbn [length] in H. pose proof (filter_len f l). lia.
  - destruct (f y); cbn [length] in H; [apply IH; [lia|assumption]|]. pose proof (filter_len f l). lia.
Qed.

Section Leaves.
  Context {V F : Type} {AF : Arith F}.
  Variable P : Z -> F -> Prop.
  Hypothesis P_mono : forall c c' v, c <= c' -> P c v -> P c' v.
  Hypothesis P_f32 : forall c v, P c v -> P c (f32 v).
  Hypothesis P_one : forall c v, P c v -> P c (scaled v f1).
  Hypothesis P_add : forall c c' u v, P c u -> P c' v -> P (c + c') (f32 (fadd u v)).
  Variable pipeline : list elem.
  Variable search_wids : bindex V -> list Z -> res (list (smap Z F * F)).
  Variable s : sys V.
  Hypothesis SW : forall wids, (forall i, In i wids -> mem i (wordinfo (six s)) = true) -> exists L,
    search_wids (six s) wids = Ok L /\ length L = length wids /\ Forall (good P 1) L.

  Lemma remove_oov_in wids i : In i (remove_oov (six s) wids) -> mem i (wordinfo (six s)) = true.
  Proof. unfold remove_oov. rewrite filter_In. intros [_ H]. exact H. Qed.
  Lemma union_leaf wids L m c : search_wids (six s) (remove_oov (six s) wids) = Ok L -> mass_weightedUnion L = Ok m -> Zlen wids <= c -> bounded P c m.
  Proof.
    intros E Em Hc. destruct (SW (remove_oov (six s) wids) (remove_oov_in wids)) as (L' & E' & Hl & HG). rewrite E in E'. injection E' as <-.
    destruct (zsum_ones (good P) L HG) as (cs & Hcs & Hz). pose proof (union_bound P P_mono P_f32 P_one P_add cs L m Hcs Em) as G.
    intros k v Hv. apply (P_mono (zsum cs)); [|exact (G k v Hv)]. rewrite Hz. unfold Zlen in *. rewrite Hl. unfold remove_oov. pose proof (filter_len (fun w => mem w (wordinfo (six s))) wids). lia.
  Qed.
  Lemma search_leaf t m : search pipeline search_wids s t = Ok (Some m) -> bounded P (Zlen (text_words pipeline t)) m.
  Proof.
    unfold search. intros H. assert (Hl : Zlen (termToWordIds pipeline t (slx s)) = Zlen (text_words pipeline t)) by (unfold termToWordIds, Zlen; rewrite map_length; reflexivity).
    destruct (termToWordIds pipeline t (slx s)) as [|i l]; [discriminate|]. apply bind_ok in H as (L & E & H). apply bind_ok in H as (r & Er & H). injection H as <-.
    apply (union_leaf (i :: l) L); [exact E|exact Er|lia].
  Qed.
  Lemma glob_loop_len prog prefix items : Zlen (glob_loop prog prefix items) <= Zlen items.
  Proof.
    unfold Zlen. induction items as [|[k i] items IH]; cbn [glob_loop]; [reflexivity || (cbn [length]; lia)|]. destruct (startswith k prefix); [|cbn [length]; lia].
    destruct (re_match prog k); cbn [length]; lia.
  Qed.
  Lemma glob_len p wids : globToWordIds p (slx s) = Ok wids -> Zlen wids <= Zsize (lwids (slx s)).
  Proof.
    unfold globToWordIds, globToWordIds_with. destruct (split_prefix p) as [a b]. destruct b as [|b0 b].
    - intros [= <-]. unfold get_wid. destruct (get (lwids (slx s)) a) as [w|] eqn:E; [|cbn; unfold Zsize; lia].
      apply get_In in E. unfold Zsize, size. destruct (elts (lwids (slx s))); [destruct E|]. destruct (w =? 0); unfold Zlen; cbn [length]; lia.
    - destruct a as [|a0 a]; [discriminate|]. intros H. apply bind_ok in H as (prog & _ & H). injection H as <-.
      eapply Z.le_trans; [apply glob_loop_len|]. unfold Zlen, Zsize, size. match goal with |- context [filter ?f ?l] => pose proof (filter_len f l) end. lia.
  Qed.
  Lemma glob_leaf p m : search_glob search_wids s p = Ok m -> bounded P (Zsize (lwids (slx s))) m.
  Proof.
    unfold search_glob. intros H. apply bind_ok in H as (wids & Ew & H). apply bind_ok in H as (L & E & H).
    apply (union_leaf wids L); [exact E|exact H|apply (glob_len p), Ew].
  Qed.
  Lemma phrase_loop_bound c (ix : bindex V) code hits : forall r m, (forall k v, In (k, v) hits -> P c v) -> bounded P c r -> phrase_loop ix code hits r = Ok m -> bounded P c m.
  Proof.
    induction hits as [|[d w] hits IH]; intros r m Hh Hr; cbn [phrase_loop]; [intros [= <-]; exact Hr|]. intros H. apply bind_ok in H as (words & _ & H).
    revert H. apply IH; [intros k v Hk; apply (Hh k); right; exact Hk|]. destruct (str_contains words code); [|exact Hr].
    intros k v. rewrite get_put. destruct (eqb k d); [|apply Hr]. intros [= <-]. apply P_f32, (Hh d). left. reflexivity.
  Qed.
  Lemma phrase_leaf t m : search_phrase pipeline search_wids s t = Ok m -> bounded P (Zlen (text_words pipeline t)) m.
  Proof.
    unfold search_phrase. intros H. assert (Hl : Zlen (termToWordIds pipeline t (slx s)) = Zlen (text_words pipeline t)) by (unfold termToWordIds, Zlen; rewrite map_length; reflexivity).
    set (wids := termToWordIds pipeline t (slx s)) in *. destruct (Zlen wids =? Zlen (remove_oov (six s) wids)) eqn:El; cbn [negb] in H.
    2:{ injection H as <-. intros k v. rewrite get_empty. discriminate. }
    apply Z.eqb_eq in El. apply bind_ok in H as (L & E & H). apply bind_ok in H as (hits & Eh & H).
    destruct (SW wids (filter_full _ _ El)) as (L' & E' & Hlen & HG). rewrite E in E'. injection E' as <-.
    destruct (zsum_ones (good P) L HG) as (cs & Hcs & Hz). pose proof (inter_bound P P_one P_add cs L hits Hcs Eh) as G.
    assert (Hc : zsum cs = Zlen (text_words pipeline t)) by (rewrite Hz; unfold Zlen in *; lia). rewrite Hc in G.
    destruct (is_empty hits); [injection H as <-; exact G|]. apply bind_ok in H as (code & _ & H). revert H. apply phrase_loop_bound.
    - intros k v Hk. apply (G k). apply get_In. exact Hk.
    - intros k v. rewrite get_empty. discriminate.
  Qed.

  Lemma execute_bound n m : execute pipeline search_wids s n = Ok (Some m) -> bounded P (query_size pipeline (slx s) n) m.
  Proof.
    assert (Nz : forall x, 0 <= leaf_size pipeline (slx s) x) by (intros []; cbn [leaf_size]; unfold Zlen, Zsize; lia).
    apply (exec_bounded P P_mono P_f32 P_one P_add _ _ _ (leaf_size pipeline (slx s)) Nz n).
    intros x Hx r. pose proof (leaves_leaf n x Hx) as Hf. destruct x as [w|l|p| | |]; try contradiction; cbn [executeQuery leaf_size].
    - apply search_leaf.
    - unfold rmap. intros H. apply bind_ok in H as (r' & H & [= <-]). apply phrase_leaf, H.
    - unfold rmap. intros H. apply bind_ok in H as (r' & H & [= <-]). intros k v Hv. apply (P_mono (Zsize (lwids (slx s)))); [unfold Zlen; lia|]. exact (glob_leaf p r' H k v Hv).
  Qed.

  (** the words that make up the weight of the query are among those counted *)
  Lemma terms_size n : Zlen (flat_map (text_words pipeline) (map term_text (terms n))) <= query_size pipeline (slx s) n.
  Proof.
    clear P P_mono P_f32 P_one P_add SW search_wids. unfold query_size. assert (Nz : forall x, 0 <= leaf_size pipeline (slx s) x) by (intros []; cbn [leaf_size]; unfold Zlen, Zsize; lia).
    induction n as [w|q|p|m IH|l IH|l IH] using node_induction; cbn [terms leaves map flat_map term_text leaf_size fold_right]; rewrite ?app_nil_r.
    1, 2: lia.
    - unfold Zsize. lia.
    - assert (G : forall l, 0 <= fold_right Z.add 0 (map (leaf_size pipeline (slx s)) l)); [|apply G].
      clear IH. induction l as [|x l IHl]; cbn [map fold_right]; [lia|]. specialize (Nz x). lia.
    - induction IH as [|x l Hx Hl IHl]; cbn [flat_map map fold_right]; [unfold Zlen; cbn; lia|]. rewrite !map_app, flat_map_app.
      change (fold_right Z.add 0) with zsum in *. rewrite zsum_app. unfold Zlen in *. rewrite app_length. lia.
    - induction IH as [|x l Hx Hl IHl]; cbn [flat_map map fold_right]; [unfold Zlen; cbn; lia|]. rewrite !map_app, flat_map_app.
      change (fold_right Z.add 0) with zsum in *. rewrite zsum_app. unfold Zlen in *. rewrite app_length. lia.
  Qed.

  Variable space : char -> bool.
  Variable upper : str -> str.
  Variable qpipeline : list elem.
  Variable query_weight : sys V -> list ltext -> res F.
  Lemma apply_values query start count n ign q m : parseQuery space upper (fun t => parseTerms qpipeline (TxStr t)) isGlob query = POk (n, ign) ->
    query_weight s (map term_text (terms n)) = Ok q -> feqb (norm q) f0 = false ->
    apply space upper qpipeline pipeline search_wids query_weight s query start count = POk (Some m) ->
    forall d v, get m d = Some v -> exists u, P (query_size pipeline (slx s) n) u /\ v = f32 (fdiv u (norm q)).
  Proof.
    intros Hp Hq Hz. unfold apply. rewrite Hp. cbn [pbind]. destruct (execute pipeline search_wids s n) as [[r|]|e] eqn:E; try discriminate.
    pose proof (execute_bound n r E) as G. destruct (is_empty r) eqn:Er.
    - intros [= <-] d v Hv. apply is_empty_spec in Er as ->. rewrite get_empty in Hv. discriminate.
    - unfold normalise. rewrite Hq. cbn [bind]. fold (norm q). rewrite (normalise_loop_ok (norm q) r Hz). intros H d v Hv. assert (Em : divided (norm q) r = m) by congruence. subst m.
      unfold divided in Hv. rewrite get_mmap in Hv. destruct (get r d) as [u|] eqn:Eu; [|discriminate]. cbn [option_map] in Hv. exists u. split; [exact (G d u Eu)|congruence].
  Qed.
End Leaves.
