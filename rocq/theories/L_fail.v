(** * Lemmas: histories in which calls of index_doc fail *)
From Coq Require Import Reals.RIneq.
From Verif Require Import RArith IEEE Text L_widcode L_lexicon L_setops L_baseindex L_textsys L_okapi L_cosine L_search L_okasearch L_textapi L_costext L_textex L_scoreex
  S_score S_text S_textapi S_fail M_cosine Ord.

(** ** Histories *)
Lemma siter_app {S A} (f : A -> sx S unit) a b s : siter f (a ++ b) s =
  match siter f a s with (s1, Ok tt) => siter f b s1 | (s1, Raise e) => (s1, Raise e) end.
Proof.
  revert s. induction a as [|x a IH]; intros s; [reflexivity|]. cbn [app siter]. unfold sbind.
  destruct (f x s) as [s1 [[]|e]]; [apply IH|reflexivity].
Qed.
Lemma history_prefix pipeline h1 h2 : history_ok pipeline (h1 ++ h2) -> history_ok pipeline h1.
Proof.
  intros [Hc Hs]. rewrite lex_hist_app in *. assert (Hc1 : counter_ok (lex_hist h1)) by (intros n Hn; apply Hc, in_or_app; auto).
  assert (Hc2 : counter_ok (lex_hist h2)) by (intros n Hn; apply Hc, in_or_app; auto). split; [exact Hc1|].
  unfold lex_run in *. rewrite fold_left_app in Hs. destruct (lex_fold_ok pipeline (lex_hist h1) lex_new bij_new Hc1) as [Hb _].
  destruct (lex_fold_ok pipeline (lex_hist h2) _ Hb Hc2) as [_ [_ Hg]]. intros i Hi. apply Hs. unfold lex_wids in *.
  apply keys_mem in Hi. apply keys_mem. apply mem_get in Hi as [w Hw]. apply mem_get. exists w. exact (Hg _ _ Hw).
Qed.
Lemma small_prefix pipeline h1 h2 : texts_small pipeline (h1 ++ h2) -> texts_small pipeline h1.
Proof. intros H d t Hin. apply (H d t). apply in_or_app. left. exact Hin. Qed.
Lemma successful_app a b : successful (a ++ b) = successful a ++ successful b.
Proof. apply flat_map_app. Qed.
Lemma other_ops {V} pipeline idx un l (s : sys V) :
  siter (op_step pipeline idx un) (map TOther l) s = (mkSys (fold_left (lex_step pipeline) l (slx s)) (six s), Ok tt).
Proof. revert s. induction l as [|o l IH]; intros s; [destruct s; reflexivity|]. cbn [map siter op_step]. unfold sbind, smod. rewrite IH. reflexivity. Qed.

Definition lost_step pipeline (Dn : smap Z (list str) * Z) (o : fop) : smap Z (list str) * Z :=
  match o with
  | FOp o => (docs_step pipeline (fst Dn) o, snd Dn)
  | FFail d _ _ => (fst Dn, snd Dn + match get (fst Dn) d with Some ws => Zlen ws | None => 0 end)
  end.
Lemma other_docs pipeline l D : fold_left (docs_step pipeline) (map TOther l) D = D.
Proof. revert D. induction l as [|o l IH]; intros D; [reflexivity|]. cbn [map fold_left docs_step]. apply IH. Qed.
Lemma lost_docs pipeline h D n :
  fst (fold_left (lost_step pipeline) h (D, n)) = fold_left (docs_step pipeline) (successful h) D.
Proof.
  revert D n. induction h as [|o h IH]; intros D n; [reflexivity|]. cbn [fold_left lost_step fst snd successful flat_map].
  destruct o as [o|d e l]; cbn [app fold_left].
  - apply IH.
  - rewrite fold_left_app, other_docs. apply IH.
Qed.
Lemma lost_app pipeline h o : words_lost pipeline (h ++ [o]) = words_lost pipeline h +
  match o with FFail d _ _ => match get (docs_of pipeline (successful h)) d with Some ws => Zlen ws | None => 0 end | _ => 0 end.
Proof.
  unfold words_lost. change (fun (Dn : smap Z (list str) * Z) (o : fop) => match o with
    | FOp o0 => (docs_step pipeline (fst Dn) o0, snd Dn)
    | FFail d _ _ => (fst Dn, snd Dn + match get (fst Dn) d with Some ws => Zlen ws | None => 0 end) end) with (lost_step pipeline).
  rewrite fold_left_app. cbn [fold_left]. unfold lost_step at 1. rewrite lost_docs. fold (docs_of pipeline (successful h)).
  destruct o; cbn [snd]; lia.
Qed.

(** ** A failing call *)
Section Call.
  Context {V : Type}.
  Variables (rnd : V -> V) (veqb : V -> V -> bool) (freqs : list Z -> res (smap Z V * V)) (fr : list Z -> smap Z V * V).
  Hypothesis freqs_fr : forall wids, freqs wids = Ok (fr wids).
  Variable pipeline : list elem.
  Lemma failed_reindex s D d ws e l : sysinv rnd fr s D -> get D d = Some ws ->
    base_reindex_with rnd veqb freqs d (failing pipeline e l) s = (mkSys (fold_left (lex_step pipeline) l (slx s)) (six s), Raise e).
  Proof.
    intros H Hd. unfold base_reindex_with, sbind, slift. rewrite (get_words_D _ _ _ _ _ H), Hd, freqs_fr.
    destruct (fr _). reflexivity.
  Qed.
  Lemma failed_new re s D d e l : sysinv rnd fr s D -> get D d = None ->
    base_index_doc_with rnd freqs re d (failing pipeline e l) s = (mkSys (fold_left (lex_step pipeline) l (slx s)) (six s), Raise e).
  Proof.
    intros H Hd. unfold base_index_doc_with. rewrite (has_doc_D _ _ _ _ _ H).
    replace (mem d D) with false by (symmetry; apply mem_false; exact Hd). reflexivity.
  Qed.
End Call.

Section CosFail.
  Context {F : Type} {AF : Arith F} {SF : SafeArith F} {EF : SoundEq F}.
  Variable pipeline : list elem.
  Lemma cos_failed (s : sys F) D d e l : sysinv f32 cos_fr s D ->
    cos_index_doc_with d (failing pipeline e l) s = (mkSys (fold_left (lex_step pipeline) l (slx s)) (six s), Raise e).
  Proof.
    intros H. destruct (get D d) as [ws|] eqn:Hd; unfold cos_index_doc_with.
    - unfold base_index_doc_with. rewrite (has_doc_D _ _ _ _ _ H). replace (mem d D) with true by (symmetry; apply mem_get; eauto).
      exact (failed_reindex f32 feqb cos_freqs cos_fr cos_freqs_fr pipeline s D d ws e l H Hd).
    - exact (failed_new f32 cos_freqs cos_fr pipeline _ s D d e l H Hd).
  Qed.
  Lemma cos_fail h : history_ok pipeline (successful h) ->
    cos_frun (F := F) pipeline h = (cos_state pipeline (successful h), Ok tt) /\
    forall d e l, snd (cos_index_doc_with d (failing pipeline e l) (cos_state (F := F) pipeline (successful h))) = Raise e.
  Proof.
    intros Hh. split.
    2:{ intros d e l. destruct (cos_state_ok (F := F) pipeline _ Hh) as (_ & _ & Hi). rewrite (cos_failed _ _ d e l Hi). reflexivity. }
    induction h as [|o h IH] using rev_ind; [reflexivity|]. rewrite successful_app in *. pose proof (history_prefix _ _ _ Hh) as Hp.
    specialize (IH Hp). destruct (cos_run_ok (F := F) pipeline _ Hp) as (s & E & _ & Hi & _).
    destruct (cos_run_ok (F := F) pipeline _ Hh) as (s' & E' & _).
    unfold cos_state in *. rewrite E in IH. rewrite E'. cbn [fst] in *. unfold cos_frun, run_fops in *. rewrite siter_app, IH.
    unfold cos_run, run_ops in E, E'. rewrite siter_app, E in E'. cbn [siter]. unfold sbind.
    destruct o as [o|d e l]; cbn [successful flat_map app] in E'.
    - cbn [siter] in E'. unfold sbind at 1 in E'. cbn [fop_step].
      change (fun d t => cos_index_doc_with d (source pipeline t)) with (cos_index_doc (F := F) pipeline).
      destruct (op_step pipeline (cos_index_doc pipeline) base_unindex_doc o s) as [s1 [[]|e]]; [|discriminate].
      injection E' as <-. reflexivity.
    - rewrite app_nil_r, other_ops in E'. injection E' as <-. cbn [fop_step]. rewrite (cos_failed _ _ d e l Hi). reflexivity.
  Qed.
End CosFail.

(** ** The total document length does not influence the updates *)
Definition commutes {A} (m : sx (sys Z) A) : Prop :=
  forall n s, m (add_total n s) = (add_total n (fst (m s)), snd (m s)).
Lemma com_ret {A} (a : A) : commutes (sret a).
Proof. intros n s. reflexivity. Qed.
Lemma com_bind {A B} (m : sx (sys Z) A) (f : A -> sx (sys Z) B) : commutes m -> (forall a, commutes (f a)) -> commutes (sbind m f).
Proof.
  intros Hm Hf n s. unfold sbind. rewrite Hm. destruct (m s) as [s1 [a|e]]; cbn [fst snd]; [apply Hf|reflexivity].
Qed.
Lemma com_lift {A} (f : sys Z -> res A) : (forall n s, f (add_total n s) = f s) -> commutes (slift f).
Proof. intros H n s. unfold slift. rewrite H. reflexivity. Qed.
Lemma com_on f : (forall n ix, f (change_totaldoclen n ix) = change_totaldoclen n (f ix)) -> commutes (on_ix f).
Proof. intros H n s. unfold on_ix, smod, add_total. cbn [slx six fst snd]. rewrite H. reflexivity. Qed.
Lemma com_iter {A} (f : A -> sx (sys Z) unit) l : (forall a, commutes (f a)) -> commutes (siter f l).
Proof. intros H. induction l as [|x l IH]; [apply com_ret|]. cbn [siter]. apply com_bind; auto. Qed.
Lemma com_if {A} (b : bool) (m m' : sx (sys Z) A) : commutes m -> commutes m' -> commutes (if b then m else m').
Proof. destruct b; auto. Qed.
Lemma com_has {A} d (m m' : sx (sys Z) A) : commutes m -> commutes m' -> commutes (fun s => if has_doc (six s) d then m s else m' s).
Proof.
  intros H H' n s. change (has_doc (six (add_total n s)) d) with (has_doc (six s) d). destruct (has_doc (six s) d); [apply H|apply H'].
Qed.
Lemma com_has' {A} d (m m' : sx (sys Z) A) : commutes m -> commutes m' -> commutes (fun s => if negb (has_doc (six s) d) then m s else m' s).
Proof.
  intros H H' n s. change (has_doc (six (add_total n s)) d) with (has_doc (six s) d). destruct (has_doc (six s) d); [apply H'|apply H].
Qed.
Lemma com_source pipeline t : commutes (source pipeline t).
Proof. intros n s. unfold source. cbn [slx six add_total]. destruct (sourceToWordIds pipeline t (slx s)). reflexivity. Qed.
Lemma com_total k : commutes (change_doc_len k).
Proof. apply com_on. intros n ix. unfold change_totaldoclen. cbn. f_equal. lia. Qed.
Lemma com_mass w d : commutes (on_ix (mass_add_wordinfo f32Z w d)).
Proof.
  apply com_on. intros n ix. unfold mass_add_wordinfo. cbn [wordinfo change_totaldoclen].
  destruct (fold_left _ _ _). reflexivity.
Qed.
Lemma com_add i w d : commutes (on_ix (add_wordinfo f32Z i w d)).
Proof.
  apply com_on. intros n ix. unfold add_wordinfo. cbn [wordinfo change_totaldoclen]. destruct (get (wordinfo ix) i); reflexivity.
Qed.
Ltac com := repeat first
  [ apply com_bind; [|intros ?] | apply com_ret | apply com_source | apply com_total | apply com_mass | apply com_add
  | apply com_iter; intros ? | apply com_if | (apply com_lift; intros; reflexivity) | (apply com_on; intros; reflexivity) ].
Lemma com_del i d : commutes (del_wordinfo i d).
Proof. unfold del_wordinfo. com. Qed.
Ltac com' := repeat first
  [ apply com_bind; [|first [intros [? ?]|intros ?]] | apply com_ret | apply com_source | apply com_total | apply com_mass | apply com_add
  | apply com_del | apply com_iter; intros ? | apply com_if | (apply com_lift; intros; reflexivity) | (apply com_on; intros; reflexivity) ].
Lemma com_reindex d src : commutes src -> commutes (base_reindex_with f32Z Z.eqb okapi_freqs d src).
Proof. intros H. unfold base_reindex_with. com'; exact H. Qed.
Lemma com_index pipeline d t : commutes (okapi_index_doc pipeline d t).
Proof.
  unfold okapi_index_doc, okapi_index_doc_with, base_index_doc_with. apply com_bind; [|intros c; com'].
  apply com_has; [unfold okapi_reindex|com']. apply com_bind; [com'|intros w]. apply com_bind; [com'|intros ?]. apply com_reindex, com_source.
Qed.
Lemma com_unindex d : commutes (okapi_unindex_doc d).
Proof.
  unfold okapi_unindex_doc. apply com_has'; [apply com_ret|]. com'. unfold base_unindex_doc. apply com_has'; [apply com_ret|].
  unfold delitem. com'.
Qed.
Lemma com_op pipeline o : commutes (op_step pipeline (okapi_index_doc pipeline) okapi_unindex_doc o).
Proof.
  destruct o as [d t|d| |o]; cbn [op_step].
  - apply com_bind; [apply com_index|intros; apply com_ret].
  - apply com_unindex.
  - apply com_on. intros n ix. reflexivity.
  - intros n s. reflexivity.
Qed.
Lemma add_total_add n k s : add_total n (add_total k s) = add_total (k + n) s.
Proof. unfold add_total, change_totaldoclen. cbn. f_equal. f_equal. lia. Qed.
Lemma add_total_0 s : add_total 0 s = s.
Proof. destruct s as [lx []]. unfold add_total, change_totaldoclen. cbn. rewrite Z.add_0_r. reflexivity. Qed.

Lemma sysinv_add n s D : sysinv f32Z okapi_fr s D -> sysinv f32Z okapi_fr (add_total n s) D.
Proof. apply sysinv_total. Qed.

Section OkapiFail.
  Variable pipeline : list elem.
  Lemma okapi_failed s D d e l : sysinv f32Z okapi_fr s D -> (forall ws, get D d = Some ws -> Zlen ws <= 2 ^ 24) ->
    okapi_index_doc_with d (failing pipeline e l) s =
    (add_total (- match get D d with Some ws => Zlen ws | None => 0 end)
       (mkSys (fold_left (lex_step pipeline) l (slx s)) (six s)), Raise e).
  Proof.
    intros H Hs. unfold okapi_index_doc_with. destruct (get D d) as [ws|] eqn:Hd.
    - unfold sbind at 1. unfold base_index_doc_with. rewrite (has_doc_D _ _ _ _ _ H). replace (mem d D) with true by (symmetry; apply mem_get; eauto).
      unfold okapi_reindex, sbind at 1 2, slift, item, change_doc_len, on_ix, smod.
      rewrite (weight_D _ _ _ _ _ H), Hd. cbn [option_map okapi_fr snd]. rewrite ids_len, f32Z_small by (pose proof (Hs _ eq_refl); unfold Zlen in *; lia).
      rewrite (failed_reindex f32Z Z.eqb okapi_freqs okapi_fr okapi_freqs_fr pipeline _ D d ws e l (sysinv_total _ _ _ H) Hd). reflexivity.
    - unfold sbind at 1. rewrite (failed_new f32Z okapi_freqs okapi_fr pipeline _ s D d e l H Hd), add_total_0. reflexivity.
  Qed.
  Lemma okapi_fail h : history_ok pipeline (successful h) -> texts_small pipeline (successful h) ->
    okapi_frun pipeline h = (add_total (- words_lost pipeline h) (okapi_state pipeline (successful h)), Ok tt) /\
    forall d e l, snd (okapi_index_doc_with d (failing pipeline e l) (fst (okapi_frun pipeline h))) = Raise e.
  Proof.
    intros Hh Hsm. assert (G : okapi_frun pipeline h = (add_total (- words_lost pipeline h) (okapi_state pipeline (successful h)), Ok tt)).
    { induction h as [|o h IH] using rev_ind; [cbn; rewrite add_total_0; reflexivity|].
      rewrite lost_app. rewrite successful_app in *. pose proof (history_prefix _ _ _ Hh) as Hp. pose proof (small_prefix _ _ _ Hsm) as Hps.
      specialize (IH Hp Hps). destruct (okapi_run_ok pipeline _ Hp) as (s & E & _ & Hi & _).
      destruct (okapi_run_ok pipeline _ Hh) as (s' & E' & _).
      unfold okapi_state in *. rewrite E in IH. rewrite E'. cbn [fst] in *. unfold okapi_frun, run_fops in *. rewrite siter_app, IH.
      unfold okapi_run, run_ops in E, E'. rewrite siter_app, E in E'. cbn [siter]. unfold sbind.
      destruct o as [o|d e l]; cbn [successful flat_map app] in E'.
      - cbn [siter] in E'. unfold sbind at 1 in E'. cbn [fop_step].
        change (fun d t => okapi_index_doc_with d (source pipeline t)) with (okapi_index_doc pipeline).
        rewrite com_op, Z.add_0_r.
        destruct (op_step pipeline (okapi_index_doc pipeline) okapi_unindex_doc o s) as [s1 [[]|e]]; [|discriminate].
        injection E' as <-. reflexivity.
      - rewrite app_nil_r, other_ops in E'. injection E' as <-. cbn [fop_step].
        rewrite (okapi_failed _ _ d e l (sysinv_add _ _ _ Hi)) by (intros ws; apply docs_small_ok; exact Hps).
        cbn [fst]. unfold sret. f_equal. rewrite Z.opp_add_distr. exact (add_total_add _ _ (mkSys _ _)). }
    split; [exact G|]. intros d e l. rewrite G. cbn [fst]. destruct (okapi_state_ok pipeline _ Hh) as (_ & _ & Hi & _).
    rewrite (okapi_failed _ _ d e l (sysinv_add _ _ _ Hi)) by (intros ws; apply docs_small_ok; exact Hsm). reflexivity.
  Qed.
End OkapiFail.

(** ** What may go wrong *)
Open Scope string_scope.
Open Scope list_scope.
Open Scope Z_scope.
(** a document that could not be replaced: all searches that find something raise *)
Definition failed_hist : list fop := [FOp (TIndex 1 (TxStr (txt "fox"))); FFail 1 TypeError []].
Lemma failed_zero : forall F (AF : Arith F), SafeArith F -> feqb (fdiv (fofZ 0) (fofZ 1)) f0 = true -> forall K1 B : F,
  search ascii_pipeline (python_search_wids K1 B) (fst (okapi_frun ascii_pipeline failed_hist)) (TxStr (txt "fox")) = Raise ZeroDivisionError.
Proof.
  intros F AF SF H0 K1 B. destruct (safe_idf 1 1 ltac:(lia) ltac:(lia)) as [H1 H2].
  assert (E1 : termToWordIds ascii_pipeline (TxStr (txt "fox")) (slx (fst (okapi_frun ascii_pipeline failed_hist))) = [1]) by (vm_compute; reflexivity).
  assert (E2 : remove_oov (six (fst (okapi_frun ascii_pipeline failed_hist))) [1] = [1]) by (vm_compute; reflexivity).
  assert (E3 : option_map (fun p => elts (p_map p)) (get (wordinfo (six (fst (okapi_frun ascii_pipeline failed_hist)))) 1) = Some [(1, 1)])
    by (vm_compute; reflexivity).
  assert (E4 : get (docweight (six (fst (okapi_frun ascii_pipeline failed_hist)))) 1 = Some 1) by (vm_compute; reflexivity).
  assert (E5 : documentCount (six (fst (okapi_frun ascii_pipeline failed_hist))) = 1) by (vm_compute; reflexivity).
  assert (E6 : totaldoclen (six (fst (okapi_frun ascii_pipeline failed_hist))) = 0) by (vm_compute; reflexivity).
  unfold search. rewrite E1, E2. destruct (fst (okapi_frun ascii_pipeline failed_hist)) as [lx ix]. cbn [slx six] in *. clear E1 E2 lx.
  unfold python_search_wids, mean_doc_len, py_div. rewrite E5, E6, H1. cbn [bind mapM].
  unfold py_search_wid, item, inverse_doc_frequency, py_div, py_log.
  destruct (get (wordinfo ix) 1) as [p|]; [|discriminate]. cbn [option_map] in E3. injection E3 as E3. cbn [bind].
  unfold Zsize, size. rewrite E3, E5. change (Z.of_nat (length [(1, 1)])) with 1. rewrite H1. cbn [bind]. rewrite H2. cbn [bind py_score].
  unfold item. rewrite E4. cbn [bind]. unfold okapi_tf, py_div. rewrite H0. reflexivity.
Qed.

(** word ids beyond 2^28: the call fails half-way *)
Definition full_hist : list top := [TIndex 2 (TxStr (txt "dog")); TOther (LCounter (2 ^ 28 - 1))].
Definition half_indexed : sys Z := fst (okapi_index_doc ascii_pipeline 1 (TxStr (txt "fox")) (okapi_state ascii_pipeline full_hist)).
Lemma half_found : forall F (AF : Arith F), SafeArith F -> forall K1 B : F, OkapiSafe K1 B ->
  exists m, search ascii_pipeline (python_search_wids K1 B) half_indexed (TxStr (txt "fox")) = Ok (Some m) /\ mem 1 m = true.
Proof.
  intros F AF SF K1 B OF. destruct (safe_idf 1 1 ltac:(lia) ltac:(lia)) as [H1 H2]. destruct (okapi_mean (K1 := K1) (B := B) 1 1 ltac:(lia) ltac:(lia)) as [_ H3].
  pose proof (okapi_denominator (K1 := K1) (B := B) 1 1 1 1 ltac:(lia) ltac:(lia) ltac:(lia) ltac:(lia)) as H4.
  assert (E1 : termToWordIds ascii_pipeline (TxStr (txt "fox")) (slx half_indexed) = [2 ^ 28]) by (vm_compute; reflexivity).
  assert (E2 : remove_oov (six half_indexed) [2 ^ 28] = [2 ^ 28]) by (vm_compute; reflexivity).
  assert (E3 : option_map (fun p => elts (p_map p)) (get (wordinfo (six half_indexed)) (2 ^ 28)) = Some [(1, 1)])
    by (vm_compute; reflexivity).
  assert (E4 : get (docweight (six half_indexed)) 1 = Some 1) by (vm_compute; reflexivity).
  assert (E5 : documentCount (six half_indexed) = 1) by (vm_compute; reflexivity).
  assert (E6 : totaldoclen (six half_indexed) = 1) by (vm_compute; reflexivity).
  unfold search. rewrite E1, E2. destruct half_indexed as [lx ix]. cbn [slx six] in *. clear E1 E2 lx.
  unfold python_search_wids, mean_doc_len, py_div. rewrite E5, E6, H1. cbn [bind mapM].
  unfold py_search_wid, item, inverse_doc_frequency, py_div, py_log.
  destruct (get (wordinfo ix) (2 ^ 28)) as [p|]; [|discriminate]. cbn [option_map] in E3. injection E3 as E3. cbn [bind].
  unfold Zsize, size. rewrite E3, E5. change (Z.of_nat (length [(1, 1)])) with 1. rewrite H1. cbn [bind]. rewrite H2. cbn [bind py_score].
  unfold item. rewrite E4. cbn [bind]. unfold okapi_tf, py_div. rewrite H3. cbn [bind]. rewrite H4. cbn [bind].
  unfold mass_weightedUnion, trivial. cbn [length Nat.ltb Nat.leb]. destruct (negb (feqb f1 f1)); cbn [bind]; eexists; (split; [reflexivity|]).
  - rewrite mem_weightedUnion. reflexivity.
  - reflexivity.
Qed.
Lemma half_way : exists pipeline h d t, history_ok pipeline h /\ texts_small pipeline h /\
  let r := okapi_index_doc pipeline d t (okapi_state pipeline h) in
  snd r = Raise AssertionError /\ has_doc (six (fst r)) d = false /\
  okapi_unindex_doc d (fst r) = (fst r, Ok tt) /\
  forall F (AF : Arith F), SafeArith F -> forall K1 B : F, OkapiSafe K1 B ->
  exists m, search pipeline (python_search_wids K1 B) (fst r) t = Ok (Some m) /\ mem d m = true.
Proof.
  exists ascii_pipeline, full_hist, 1, (TxStr (txt "fox")). split; [apply check_history_ok; vm_compute; reflexivity|].
  split; [apply check_small_ok; vm_compute; reflexivity|]. cbn zeta. fold half_indexed.
  assert (E : has_doc (six half_indexed) 1 = false) by (vm_compute; reflexivity).
  split; [vm_compute; reflexivity|]. split; [exact E|]. split; [|exact half_found].
  unfold okapi_unindex_doc. rewrite E. reflexivity.
Qed.
Lemma failed_refuted : exists pipeline h t, history_ok pipeline (successful h) /\ texts_small pipeline (successful h) /\
  (forall F (AF : Arith F), SafeArith F -> forall K1 B : F, OkapiSafe K1 B ->
     exists m, search pipeline (python_search_wids K1 B) (okapi_state pipeline (successful h)) t = Ok m) /\
  forall F (AF : Arith F), SafeArith F -> feqb (fdiv (fofZ 0) (fofZ 1)) f0 = true -> forall K1 B : F,
  search pipeline (python_search_wids K1 B) (fst (okapi_frun pipeline h)) t = Raise ZeroDivisionError.
Proof.
  exists ascii_pipeline, failed_hist, (TxStr (txt "fox")). assert (H1 : history_ok ascii_pipeline (successful failed_hist)) by (apply check_history_ok; vm_compute; reflexivity).
  assert (H2 : texts_small ascii_pipeline (successful failed_hist)) by (apply check_small_ok; vm_compute; reflexivity).
  split; [exact H1|]. split; [exact H2|]. split; [|exact failed_zero].
  intros F AF SF K1 B OF. exact (proj1 (okapi_total_searches K1 B ascii_pipeline _ H1 H2) _).
Qed.

(** ** While the total document length is positive *)
Section Found.
  Context {F : Type} {AF : Arith F} {SF : SafeArith F}.
  Variables K1 B : F.
  Context {OF : OkapiSafe K1 B}.
  Variable pipeline : list elem.
  Lemma failed_found h t : history_ok pipeline (successful h) -> texts_small pipeline (successful h) ->
    words_lost pipeline h < total_words (docs_of pipeline (successful h)) + words_cleared pipeline (successful h) ->
    text_words pipeline t <> [] -> exists m,
      search pipeline (python_search_wids K1 B) (fst (okapi_frun pipeline h)) t = Ok (Some m) /\
      forall d, mem d m = true <-> exists ws, get (docs_of pipeline (successful h)) d = Some ws /\ has_some (text_words pipeline t) ws.
  Proof.
    intros Hh Hs Hl Ht. destruct (okapi_fail pipeline h Hh Hs) as [E _]. rewrite E. cbn [fst].
    destruct (okapi_state_ok pipeline _ Hh) as (_ & _ & Hi & Htot). rewrite (okapi_total_small _ _ Hs) in Htot.
    pose proof (sysinv_add (- words_lost pipeline h) _ _ Hi) as Hi'.
    assert (Hp : forall w, In w (vocabulary (docs_of pipeline (successful h))) ->
      1 <= totaldoclen (six (add_total (- words_lost pipeline h) (okapi_state pipeline (successful h))))).
    { intros w _. cbn [add_total six change_totaldoclen totaldoclen]. lia. }
    pose proof (search_docs pipeline f32Z okapi_fr okapi_keys (python_search_wids K1 B) _ _ Hi' _ _
      (oka_wids_ok K1 B _ _ Hi' Hp) (oka_keys K1 B _ _ Hi') t) as HS.
    destruct (text_words pipeline t); [contradiction|exact HS].
  Qed.
End Found.

Lemma zero_zero : feqb (fdiv (fofZ 0) (fofZ 1) : Rdefinitions.R) f0 = true /\
  forall ln, feqb (Arith := Arith_b64 ln) (fdiv (Arith := Arith_b64 ln) (fofZ (Arith := Arith_b64 ln) 0) (fofZ (Arith := Arith_b64 ln) 1)) (f0 (Arith := Arith_b64 ln)) = true.
Proof.
  split; [|intros ln; vm_compute; reflexivity]. apply (proj2 (feqb_eq _ _)). rarith. unfold Rdefinitions.Rdiv. apply Rmult_0_l.
Qed.
