(** * Lemmas about query weights and about the words that make up a score *)
From Verif Require Import L_lexicon L_setops L_baseindex L_textsys L_okapi L_cosine L_search L_okasearch L_cossearch
  L_textapi L_costext M_tree S_tree L_query L_tree L_treeex S_score S_text S_textapi S_textindex M_textindex Arith SMap Ord.

(** ** Query weights *)
Section Weight.
  Context {V F : Type} {AF : Arith F} {SF : SafeArith F}.
  Variable pipeline : list elem.
  Variable rnd : V -> V.
  Variable fr : list Z -> smap Z V * V.
  Hypothesis freqs_keys : forall wids w, mem w (fst (fr wids)) = true <-> In w wids.
  Variable s : sys V.
  Variable D : smap Z (list str).
  Hypothesis inv : sysinv rnd fr s D.
  Local Notation invocab_words q := (filter (contains (vocabulary D)) q).

  Lemma weight_wids ts :
    remove_oov (six s) (flat_map (fun term => termToWordIds pipeline term (slx s)) ts) =
    map (get_wid (slx s)) (invocab_words (flat_map (text_words pipeline) ts)).
  Proof.
    replace (flat_map (fun term => termToWordIds pipeline term (slx s)) ts)
      with (ids (slx s) (flat_map (text_words pipeline) ts)).
    - exact (remove_oov_ids rnd fr freqs_keys s D inv _).
    - unfold ids. induction ts as [|t ts IH]; [reflexivity|]. cbn [flat_map]. rewrite map_app, IH. reflexivity.
  Qed.

  Lemma weight_fold (g : F -> F -> F) q : (forall w, In w q -> In w (vocabulary D)) -> forall a,
    fold_left (fun acc t => do sum <- acc; do p <- item (wordinfo (six s)) t;
        do idf <- inverse_doc_frequency (Zsize (p_map p)) (fofZ (Zsize (docweight (six s)))); Ok (g sum idf))
      (map (get_wid (slx s)) q) (Ok a) = Ok (fold_left (fun acc w => g acc (idf D w)) q a).
  Proof.
    induction q as [|w q IH]; intros Hq a; [reflexivity|]. cbn [map fold_left bind].
    assert (Hw : In w (vocabulary D)) by (apply Hq; left; reflexivity).
    destruct (posting_item rnd fr freqs_keys s D inv w Hw) as (p & Ep & Hp).
    unfold item at 2. rewrite Ep. cbn [bind]. rewrite Hp, (posting_size rnd fr freqs_keys s D inv w).
    rewrite (idf_ok D w _ Hw (docweight_size rnd fr s D inv)). cbn [bind]. apply IH. intros x Hx. apply Hq. right. exact Hx.
  Qed.
  Lemma invocab_words_in q w : In w (invocab_words q) -> In w (vocabulary D).
  Proof. rewrite filter_In. intros [_ H]. apply existsb_eqb_In. exact H. Qed.
End Weight.

Lemma fold_fsum {F} {AF : Arith F} {XF : ExactArith F} {A} (g : A -> F) l a :
  fold_left (fun acc x => fadd acc (g x)) l a = fadd a (fsum (map g l)).
Proof.
  revert a. induction l as [|x l IH]; intros a; cbn [fold_left map fsum fold_right].
  - rewrite fadd_comm, fadd_0_l. reflexivity.
  - rewrite IH, fadd_assoc. reflexivity.
Qed.
Lemma fsum_app {F} {AF : Arith F} {XF : ExactArith F} (a b : list F) : fsum (a ++ b) = fadd (fsum a) (fsum b).
Proof.
  induction a as [|x a IH]; cbn [app fsum fold_right]; [symmetry; apply fadd_0_l|].
  change (fold_right fadd f0 (a ++ b)) with (fsum (a ++ b)). rewrite IH, fadd_assoc. reflexivity.
Qed.

Section IndexWeights.
  Context {F : Type} {AF : Arith F} {SF : SafeArith F}.
  Variable pipeline : list elem.
  Local Notation docs h := (docs_of pipeline h).
  Local Notation words ts := (flat_map (text_words pipeline) ts).

  Lemma okapi_weight_ok (K1 : F) h ts : history_ok pipeline h ->
    okapi_query_weight pipeline K1 (okapi_state pipeline h) ts =
      Ok (fold_left (fun acc w => fadd acc (fmul (idf (docs h) w) (fadd f1 K1)))
                    (filter (contains (vocabulary (docs h))) (words ts)) f0).
  Proof.
    intros H. destruct (okapi_state_ok pipeline h H) as (_ & _ & Hi & _). unfold okapi_query_weight.
    rewrite (weight_wids pipeline f32Z okapi_fr okapi_keys _ _ Hi).
    exact (weight_fold f32Z okapi_fr okapi_keys _ _ Hi (fun sum idf => fadd sum (fmul idf (fadd f1 K1))) _ (invocab_words_in (docs h) _) f0).
  Qed.
  Lemma cos_weight_ok {QF : SoundEq F} h ts : history_ok pipeline h ->
    cos_query_weight pipeline (cos_state (F := F) pipeline h) ts =
      Ok (fsqrt (fold_left (fun acc w => fadd acc (fmul (idf (docs h) w) (idf (docs h) w)))
                    (filter (contains (vocabulary (docs h))) (words ts)) f0)).
  Proof.
    intros H. destruct (cos_state_ok pipeline h H) as (_ & _ & Hi). unfold cos_query_weight.
    rewrite (weight_wids pipeline f32 cos_fr cos_keys _ _ Hi).
    rewrite (weight_fold f32 cos_fr cos_keys _ _ Hi (fun sum idf => fadd sum (fmul idf idf)) _ (invocab_words_in (docs h) _) f0).
    cbn [bind]. unfold py_sqrt.
    assert (E : forall q a, (forall w, In w q -> In w (vocabulary (docs h))) -> fleb f0 a = true ->
      fleb f0 (fold_left (fun acc w => fadd acc (fmul (idf (docs h) w) (idf (docs h) w))) q a) = true).
    { induction q as [|w q IH]; intros a Hq Ha; [exact Ha|]. cbn [fold_left]. apply IH; [intros x Hx; apply Hq; right; exact Hx|].
      assert (Hw : In w (vocabulary (docs h))) by (apply Hq; left; reflexivity).
      apply safe_idf_square; [exact (doc_freq_pos _ _ Hw)|pose proof (docs_nonempty _ _ Hw); lia|exact Ha]. }
    rewrite E; [reflexivity|exact (invocab_words_in (docs h) _)|exact safe_zero].
  Qed.

  Lemma fold_lsum {A} (g : A -> F) l a : fold_left (fun acc x => fadd acc (g x)) l a = fold_left fadd (map g l) a.
  Proof. revert a; induction l as [|x l IH]; intros a; [reflexivity|]. cbn [fold_left map]. apply IH. Qed.
  Lemma okapi_weight_exact (K1 : F) h ts : history_ok pipeline h ->
    okapi_query_weight pipeline K1 (okapi_state pipeline h) ts = Ok (okapi_weight K1 (docs h) (words ts)).
  Proof. intros H. rewrite (okapi_weight_ok K1 h ts H), fold_lsum. reflexivity. Qed.
  Lemma cos_weight_exact {QF : SoundEq F} h ts : history_ok pipeline h ->
    cos_query_weight pipeline (cos_state (F := F) pipeline h) ts = Ok (cos_weight (docs h) (words ts)).
  Proof. intros H. rewrite (cos_weight_ok h ts H), fold_lsum. reflexivity. Qed.
End IndexWeights.

(** ** The score of a tree is the score of some of its words *)
Section TreeWords.
  Context {F : Type} {AF : Arith F} {XF : ExactArith F}.
  Variable found : node -> option (smap Z F).
  Variable d : Z.
  Variable ws : list str.
  Variable c : str -> list str -> F.
  Variable lw : node -> list str. (* the words of a leaf *)

  Definition leaf_score_ok (x : node) : Prop := forall m v, found x = Some m -> get m d = Some v ->
    v = words_score c (lw x) ws /\ existsb (contains ws) (lw x) = true.

  Lemma words_score_app q q' : words_score c (q ++ q') ws = fadd (words_score c q ws) (words_score c q' ws).
  Proof. unfold words_score. rewrite filter_app, map_app, fsum_app. reflexivity. Qed.

  Definition from_words (v : F) (all : list str) : Prop :=
    exists q rest, Permutation (q ++ rest) all /\ v = words_score c q ws /\ existsb (contains ws) q = true.

  Lemma opt_sum_cons o l : opt_sum (o :: l) = match o with Some v => fadd v (opt_sum l) | None => opt_sum l end.
  Proof. unfold opt_sum. destruct o; reflexivity. Qed.

  (** a list of operands, each contributing a score or not *)
  Lemma parts_words (l : list (option F * list str)) :
    Forall (fun p => forall v, fst p = Some v -> from_words v (snd p)) l ->
    exists q rest, Permutation (q ++ rest) (flat_map snd l) /\ opt_sum (map fst l) = words_score c q ws /\
      (existsb is_some (map fst l) = true -> existsb (contains ws) q = true).
  Proof.
    induction 1 as [|[o a] l Hx Hl (q & rest & HP & Hs & He)].
    - exists [], []. splits; [constructor|reflexivity|discriminate].
    - cbn [map flat_map fst snd existsb] in *. rewrite opt_sum_cons. destruct o as [v|].
      + destruct (Hx v eq_refl) as (q1 & r1 & HP1 & -> & He1). exists (q1 ++ q), (r1 ++ rest). splits.
        * rewrite <- HP1, <- HP, <- !app_assoc. apply Permutation_app_head. rewrite !app_assoc. apply Permutation_app_tail.
          apply Permutation_app_comm.
        * rewrite words_score_app, Hs. reflexivity.
        * intros _. rewrite existsb_app, He1. reflexivity.
      + exists q, (a ++ rest). splits; [|exact Hs|exact He].
        rewrite <- HP, !app_assoc. apply Permutation_app_tail, Permutation_app_comm.
  Qed.

  Lemma tree_words n : (forall x, In x (positive_leaves n) -> leaf_score_ok x) ->
    forall v, score found d n = Some v -> from_words v (flat_map lw (positive_leaves n)).
  Proof.
    assert (HL : forall x, leaf_score_ok x -> forall v, score_leaf found d x = Some v -> from_words v (lw x ++ [])).
    { intros x Hx v Hv. unfold score_leaf in Hv. destruct (found x) as [m|] eqn:Em; [|discriminate].
      destruct (Hx m v Em Hv) as [-> He]. exists (lw x), []. auto. }
    induction n as [w|p|w|m IH|l IH|l IH] using node_induction; intros Hl v Hv.
    - exact (HL _ (Hl _ (or_introl eq_refl)) v Hv).
    - exact (HL _ (Hl _ (or_introl eq_refl)) v Hv).
    - exact (HL _ (Hl _ (or_introl eq_refl)) v Hv).
    - discriminate.
    - rewrite score_and in Hv.
      destruct (negb _ && forallb is_some (pos_scores found d l) && negb _) eqn:E; [|discriminate].
      injection Hv as <-. apply andb_true_iff in E as [E _]. apply andb_true_iff in E as [E1 E2].
      set (parts := map (fun x => (match x with NNot _ => None | _ => if neutralb found x then None else score found d x end,
                                   flat_map lw (positive_leaves x))) l).
      destruct (parts_words parts) as (q & rest & HP & Hs & He).
      { unfold parts. apply Forall_forall. intros [o a] Hin. apply in_map_iff in Hin as (x & [= <- <-] & Hx). cbn [fst snd].
        rewrite Forall_forall in IH. intros u Hu.
        assert (Hu' : score found d x = Some u) by (destruct x; try discriminate; destruct (neutralb found _); congruence).
        apply (IH x Hx); [|exact Hu']. intros y Hy. apply Hl. cbn [positive_leaves]. apply in_flat_map. eauto. }
      assert (Epos : opt_sum (map fst parts) = opt_sum (pos_scores found d l) /\
                     existsb is_some (map fst parts) = existsb is_some (pos_scores found d l)).
      { unfold parts. clear. induction l as [|x l [IH1 IH2]]; [split; reflexivity|].
        cbn [map fst pos_scores]. rewrite opt_sum_cons. cbn [existsb].
        destruct x; cbn [existsb]; rewrite ?IH1, ?IH2; auto;
          destruct (neutralb found _); cbn [existsb]; rewrite ?opt_sum_cons, ?IH1, ?IH2; auto; split; reflexivity. }
      destruct Epos as [Ep1 Ep2]. exists q, rest. splits.
      + rewrite HP. unfold parts. cbn [positive_leaves]. clear. induction l as [|x l IH]; [constructor|].
        cbn [map flat_map snd]. rewrite flat_map_app, IH. reflexivity.
      + rewrite <- Ep1. exact Hs.
      + apply He. rewrite Ep2. destruct (pos_scores found d l) as [|o os]; [discriminate|].
        cbn [forallb existsb] in *. apply andb_true_iff in E2 as [-> _]. reflexivity.
    - rewrite score_or in Hv. destruct (existsb is_some (map (score found d) l)) eqn:E; [|discriminate]. injection Hv as <-.
      set (parts := map (fun x => (score found d x, flat_map lw (positive_leaves x))) l).
      destruct (parts_words parts) as (q & rest & HP & Hs & He).
      { unfold parts. apply Forall_forall. intros [o a] Hin. apply in_map_iff in Hin as (x & [= <- <-] & Hx). cbn [fst snd].
        rewrite Forall_forall in IH. intros u Hu. apply (IH x Hx); [|exact Hu]. intros y Hy. apply Hl. cbn [positive_leaves].
        apply in_flat_map. eauto. }
      assert (Ep : map fst parts = map (score found d) l) by (unfold parts; rewrite map_map; reflexivity).
      rewrite Ep in *. exists q, rest. splits; [|exact Hs|exact (He E)].
      rewrite HP. unfold parts. cbn [positive_leaves]. clear. induction l as [|x l IH]; [constructor|].
      cbn [map flat_map snd]. rewrite flat_map_app, IH. reflexivity.
  Qed.
End TreeWords.
