(** * A query that changes a cosine index, in binary64 arithmetic *)
From Coq Require Import Reals Lra.
From Flocq Require Import Core.Core IEEE754.BinarySingleNaN.
From Verif Require Import Text S_alias M_alias L_alias L_e L_quiet L_lexicon L_okapi L_okasearch L_textsys L_cosine L_cossearch L_costext L_textindex L_textex L_weight
  S_textindex S_score M_split Arith IEEE L_ieee SMap Ord.
Open Scope string_scope.
Open Scope list_scope.
Open Scope Z_scope.

(** ** The logarithm of a number near e *)
Local Notation fexp := (SpecFloat.fexp 53 1024).
Local Notation rnd := (round radix2 fexp ZnearestE).
Definition xr : R := (6121026514868073 / 2251799813685248)%R. (* 2^51 *)

Lemma e_near : (xr < exp 1 < xr * (1 + / 18014398509481984))%R. (* 2^54 *)
Proof.
  destruct e_digits as [H1 H2].
  assert (E1 : enum 21 = 138879579704209680022) by reflexivity. assert (E2 : zfact 21 = 51090942171709440000) by reflexivity.
  rewrite E1, E2 in H1, H2. clear E1 E2. unfold xr. split; lra.
Qed.
Lemma ln_near : (1 - / 18014398509481984 < ln xr < 1)%R.
Proof.
  destruct e_near as [H1 H2]. assert (Hx : (0 < xr)%R) by (unfold xr; lra).
  split.
  - assert (H3 : (1 < ln (xr * (1 + / 18014398509481984)))%R).
    { rewrite <- (ln_exp 1) at 1. apply ln_increasing; [apply exp_pos|exact H2]. }
    rewrite ln_mult in H3 by lra.
    assert (H4 : (ln (1 + / 18014398509481984) < / 18014398509481984)%R).
    { rewrite <- (ln_exp (/ 18014398509481984)) at 2. apply ln_increasing; [lra|]. apply exp_ineq1. lra. }
    lra.
  - rewrite <- (ln_exp 1). apply ln_increasing; assumption.
Qed.
Lemma rnd_near r : (1 - / 18014398509481984 < r < 1)%R -> rnd r = 1%R.
Proof.
  intros [H1 H2].
  assert (Hm : mag radix2 r = 0%Z :> Z).
  { apply mag_unique_pos. change (bpow radix2 (0 - 1)) with (/ 2)%R. change (bpow radix2 0) with 1%R. lra. }
  unfold round, scaled_mantissa, cexp. rewrite Hm. change (fexp 0) with (-53). change (bpow radix2 (- -53)) with 9007199254740992%R.
  rewrite (Znearest_imp (fun x => negb (Z.even x)) _ 9007199254740992).
  - unfold F2R. cbn [Fnum Fexp]. change (bpow radix2 (-53)) with (/ 9007199254740992)%R. lra.
  - apply Rabs_def1; lra.
Qed.

Lemma rounded_sane ln : rounded_ln ln -> ln (B754_infinity false) = B754_infinity false -> sane_ln ln.
Proof.
  intros H Hi x Hx. apply leb_ge1 in Hx. apply leb_ge0. destruct Hx as [->|[Fx Hx]]; [left; exact Hi|].
  destruct (H x Fx Hx) as [H1 H2]. right. split; [exact H1|]. rewrite H2. apply rnd_ge; [apply format_0|].
  rewrite <- ln_1. destruct Hx as [Hx|Hx]; [left; apply ln_increasing; lra|rewrite <- Hx; right; reflexivity].
Qed.
Lemma ln_le x : (1 <= x)%R -> (0 <= ln x <= x)%R.
Proof.
  intros Hx. split.
  - rewrite <- ln_1. destruct Hx as [Hx|Hx]; [left; apply ln_increasing; lra|rewrite <- Hx; right; reflexivity].
  - left. rewrite <- (ln_exp x) at 2. apply ln_increasing; [lra|]. pose proof (exp_ineq1 x). lra.
Qed.
Lemma b64_ln_rounded : rounded_ln b64_ln.
Proof.
  intros x Fx Hx. destruct (pos_finite x Fx) as (m & e & Hb & E); [lra|]. destruct (ln_le (B2R x) Hx) as [Hl0 Hl1].
  rewrite E in *. unfold b64_ln. set (r := ln (B2R (B754_finite false m e Hb))) in *. cbv zeta.
  assert (Er : F2R (Float radix2 (ZnearestE (scaled_mantissa radix2 fexp r)) (cexp radix2 fexp r)) = rnd r) by reflexivity.
  assert (Hrr : rnd (rnd r) = rnd r).
  { apply round_generic; [apply valid_rnd_N|]. apply generic_format_round; [apply fexp_correct; reflexivity|apply valid_rnd_N]. }
  assert (Hb1 : (rnd r <= B2R (B754_finite false m e Hb))%R).
  { apply round_le_generic; [apply fexp_correct; reflexivity|apply valid_rnd_N|apply format_B2R|exact Hl1]. }
  assert (Hb0 : (0 <= rnd r)%R) by (apply rnd_ge; [apply format_0|exact Hl0]).
  destruct (of_R (ZnearestE (scaled_mantissa radix2 fexp r)) (cexp radix2 fexp r)) as [H1 H2].
  - rewrite Er, Hrr. rewrite Rabs_pos_eq by exact Hb0. eapply Rle_lt_trans; [exact Hb1|].
    pose proof (abs_B2R_lt_emax 53 1024 (B754_finite false m e Hb)) as Hm. eapply Rle_lt_trans; [apply Rle_abs|exact Hm].
  - split; [exact H1|]. rewrite H2, Er. exact Hrr.
Qed.

Definition docs_N : Z := 205671881.
Definition docs_n : Z := 119696244.
Local Notation one := (b64_of 1 0).
Definition xb : b64 := Bplus mode_NE one (Bdiv mode_NE (b64_ofZ docs_N) (b64_ofZ docs_n)).
Lemma xb_value : is_finite xb = true /\ B2R xb = xr.
Proof.
  assert (E : B2SF xb = SpecFloat.S754_finite false 6121026514868073 (-51)) by (vm_compute; reflexivity).
  destruct xb as [s|s| |s m e Hb]; try discriminate. cbn [B2SF] in E. injection E as -> -> ->. split; [reflexivity|].
  cbn [B2R cond_Zopp]. unfold F2R, xr. cbn [Fnum Fexp]. change (bpow radix2 (-51)) with (/ 2251799813685248)%R. reflexivity.
Qed.
Lemma one_unique (x : b64) : is_finite x = true -> B2R x = 1%R -> x = one.
Proof.
  intros F E. assert (Fs : is_finite_strict x = true). { destruct x; try discriminate; [|reflexivity]. cbn in E. lra. }
  apply B2R_inj; [exact Fs|vm_compute; reflexivity|]. rewrite E. symmetry. exact B2R_one.
Qed.
Section Ln.
  Variable ln : b64 -> b64.
  Hypothesis Hln : rounded_ln ln.
  Lemma ln_xb : ln xb = one.
  Proof.
    destruct xb_value as [F E]. destruct (Hln xb F) as [H1 H2]; [rewrite E; unfold xr; lra|].
    apply one_unique; [exact H1|]. rewrite H2, E. apply rnd_near, ln_near.
  Qed.
  Lemma ln_one_weight : Bplus mode_NE one (ln (b64_ofZ 1)) = one.
  Proof.
    change (b64_ofZ 1) with one. destruct (Hln one one_finite) as [H1 H2]; [rewrite B2R_one; lra|].
    rewrite B2R_one, ln_1, round_0 in H2 by apply valid_rnd_N.
    destruct (ln one) as [s|s| |s m e Hb]; try discriminate; [apply (B2SF_inj 53 1024); destruct s; vm_compute; reflexivity|].
    cbn [B2R] in H2. apply eq_0_F2R in H2. destruct s; discriminate.
  Qed.
End Ln.

(** ** Many documents with the same text *)
Definition copies (a : Z) (k : nat) (t : ltext) : list top := map (fun i => TIndex (a + Z.of_nat i) t) (seq 0 k).
Lemma copies_S a k t : copies a (S k) t = copies a k t ++ [TIndex (a + Z.of_nat k) t].
Proof. unfold copies. rewrite seq_S, map_app. reflexivity. Qed.
Lemma doc_freq_new D d ws w : get D d = None -> doc_freq (put d ws D) w = doc_freq D w + (if contains ws w then 1 else 0).
Proof.
  intros H. unfold doc_freq, Zlen. pose proof (vals_perm_put d ws D) as P. rewrite (del_absent d D H) in P.
  assert (E : length (filter (fun ws => contains ws w) (vals (put d ws D))) = length (filter (fun ws => contains ws w) (ws :: vals D))).
  { apply Permutation_length. clear - P. induction P as [|x l l' P IH|x y l|l l' l'' P1 IH1 P2 IH2]; cbn [filter].
    - constructor.
    - destruct (contains x w); [constructor; exact IH|exact IH].
    - destruct (contains x w), (contains y w); try reflexivity. apply perm_swap.
    - etransitivity; eassumption. }
  rewrite E. cbn [filter]. destruct (contains ws w); cbn [length]; lia.
Qed.
Lemma copies_docs pipeline a k t D : (forall d, a <= d -> get D d = None) ->
  let D' := fold_left (docs_step pipeline) (copies a k t) D in
  (forall d, d < a -> get D' d = get D d) /\
  (forall d, a <= d < a + Z.of_nat k -> get D' d = Some (text_words pipeline t)) /\
  (forall d, a + Z.of_nat k <= d -> get D' d = None) /\
  Zsize D' = Zsize D + Z.of_nat k /\
  forall w, doc_freq D' w = doc_freq D w + (if contains (text_words pipeline t) w then Z.of_nat k else 0).
Proof.
  intros H. induction k as [|k IH].
  - cbn [copies seq map fold_left]. split; [auto|]. split; [intros d Hd; lia|]. split; [intros d Hd; apply H; lia|]. split; [lia|].
    intros w. destruct (contains _ w); lia.
  - cbv zeta in *. rewrite copies_S, fold_left_app. cbn [fold_left docs_step]. destruct IH as (I1 & I2 & I3 & I4 & I5).
    set (D' := fold_left (docs_step pipeline) (copies a k t) D) in *.
    assert (Hn : get D' (a + Z.of_nat k) = None) by (apply I3; lia).
    split; [intros d Hd; rewrite get_put_other by lia; apply I1, Hd|].
    split. { intros d Hd. rewrite get_put. destruct (eqb d (a + Z.of_nat k)) eqn:E; [reflexivity|]. assert (d <> a + Z.of_nat k) by (intros ->; rewrite eqb_refl in E; discriminate). apply I2. lia. }
    split; [intros d Hd; rewrite get_put_other by lia; apply I3; lia|].
    split; [rewrite (Zsize_put_new _ _ _ Hn), I4; lia|].
    intros w. rewrite (doc_freq_new _ _ _ _ Hn), I5. destruct (contains _ w); lia.
Qed.
Lemma create_all_known ws lx : (forall w, In w ws -> exists i, get (lwids lx) w = Some i) -> fst (create_all ws lx) = lx.
Proof.
  induction ws as [|w ws IH]; intros H; [reflexivity|]. cbn [create_all]. unfold getWordIdCreate. destruct (H w (or_introl eq_refl)) as [i ->].
  specialize (IH (fun x Hx => H x (or_intror Hx))). destruct (create_all ws lx) as [lx2 [l|e]]; exact IH.
Qed.
Lemma copies_lex pipeline a k t lx : (forall w, In w (text_words pipeline t) -> exists i, get (lwids (lex_step pipeline lx (LText t))) w = Some i) ->
  fold_left (lex_step pipeline) (lex_hist (copies a (S k) t)) lx = lex_step pipeline lx (LText t).
Proof.
  intros H. induction k as [|k IH]; [reflexivity|]. rewrite copies_S. unfold lex_hist in *. rewrite flat_map_app, fold_left_app, IH.
  cbn [flat_map app fold_left]. cbn [lex_step]. unfold sourceToWordIds at 1. apply create_all_known. exact H.
Qed.

(** ** The collection *)
Definition text1 : ltext := TxStr (txt "ab cd abxcd").
Definition text2 : ltext := TxStr (txt "zz").
Definition big (k1 k2 : nat) : list top := copies 1 (S k1) text1 ++ copies (2 + Z.of_nat k1) (S k2) text2.
Definition lx0 : lex := lex_step ascii_pipeline (lex_step ascii_pipeline lex_new (LText text1)) (LText text2).
Local Notation w1 := (txt "ab").
Local Notation w2 := (txt "cd").
Local Notation w3 := (txt "abxcd").
Lemma text1_words : text_words ascii_pipeline text1 = [w1; w2; w3].
Proof. vm_compute. reflexivity. Qed.
Lemma text2_words : text_words ascii_pipeline text2 = [txt "zz"].
Proof. vm_compute. reflexivity. Qed.
Definition known_b (lx : lex) (ws : list str) : bool := forallb (fun w => mem w (lwids lx)) ws.
Lemma known_b_ok lx ws : known_b lx ws = true -> forall w, In w ws -> exists i, get (lwids lx) w = Some i.
Proof. unfold known_b. rewrite forallb_forall. intros H w Hw. apply mem_get. exact (H w Hw). Qed.
Lemma big_lex k1 k2 : lex_run ascii_pipeline (lex_hist (big k1 k2)) = lx0.
Proof.
  unfold lex_run, big, lex_hist. rewrite flat_map_app, fold_left_app.
  change (fold_left (lex_step ascii_pipeline) (lex_hist (copies (2 + Z.of_nat k1) (S k2) text2))
    (fold_left (lex_step ascii_pipeline) (lex_hist (copies 1 (S k1) text1)) lex_new) = lx0).
  rewrite (copies_lex ascii_pipeline 1 k1 text1 lex_new) by (apply known_b_ok; vm_compute; reflexivity).
  apply copies_lex. apply known_b_ok. vm_compute. reflexivity.
Qed.
Lemma lex_copies_text a k t o : In o (lex_hist (copies a k t)) -> o = LText t.
Proof.
  unfold lex_hist, copies. rewrite in_flat_map. intros (x & Hx & Ho). apply in_map_iff in Hx as (i & <- & _). destruct Ho as [<-|[]]. reflexivity.
Qed.
Lemma big_ok k1 k2 : history_ok ascii_pipeline (big k1 k2).
Proof.
  split.
  - intros n Hn. unfold big, lex_hist in Hn. rewrite flat_map_app in Hn.
    apply in_app_or in Hn as [Hn|Hn]; apply lex_copies_text in Hn; discriminate.
  - rewrite big_lex. assert (G : forallb (fun i => i <? 2 ^ 28) (lex_wids lx0) = true) by (vm_compute; reflexivity).
    rewrite forallb_forall in G. intros i Hi. specialize (G i Hi). lia.
Qed.
Lemma big_docs k1 k2 : let D := docs_of ascii_pipeline (big k1 k2) in
  Zsize D = Z.of_nat (S k1) + Z.of_nat (S k2) /\
  (forall w, In w [w1; w2; w3] -> doc_freq D w = Z.of_nat (S k1)) /\
  get D 1 = Some [w1; w2; w3].
Proof.
  cbv zeta. unfold docs_of, big. rewrite fold_left_app.
  destruct (copies_docs ascii_pipeline 1 (S k1) text1 empty (fun d _ => get_empty d)) as (A1 & A2 & A3 & A4 & A5). cbv zeta in *.
  set (D1 := fold_left (docs_step ascii_pipeline) (copies 1 (S k1) text1) empty) in *.
  destruct (copies_docs ascii_pipeline (2 + Z.of_nat k1) (S k2) text2 D1) as (B1 & B2 & B3 & B4 & B5); [intros d Hd; apply A3; lia|]. cbv zeta in *.
  set (D2 := fold_left (docs_step ascii_pipeline) (copies (2 + Z.of_nat k1) (S k2) text2) D1) in *. clearbody D2.
  rewrite text1_words in A2. change (Zsize (empty : smap Z (list str))) with 0 in A4.
  split; [lia|]. split.
  - intros w Hw. rewrite B5, A5, text1_words, text2_words. change (doc_freq empty w) with 0.
    assert (E : contains [w1; w2; w3] w = true /\ contains [txt "zz"] w = false).
    { repeat destruct Hw as [<-|Hw]; try (split; vm_compute; reflexivity). destruct Hw. }
    destruct E as [-> ->]. lia.
  - rewrite B1 by lia. apply A2. lia.
Qed.

(** ** What a glob query does when it gets a BTree of the index *)
Section Glob.
  Context {F : Type} {AF : Arith F}.
  Variable pipeline : list elem.
  Lemma unit_search (s : sys F) t wid p i : termToWordIds pipeline t (slx s) = [wid] -> get (wordinfo (six s)) wid = Some p -> p_dict p = false ->
    inverse_doc_frequency (Zsize (p_map p)) (fofZ (Zsize (docweight (six s)))) = Ok i -> feqb i f1 = true ->
    search pipeline cos_search_wids s t = Ok (Some (p_map p)).
  Proof.
    intros Et Ep Hd Ei Hi. unfold search. rewrite Et. unfold remove_oov. cbn [filter].
    assert (Hm : mem wid (wordinfo (six s)) = true) by (apply mem_get; eauto). rewrite Hm.
    unfold cos_search_wids. cbn [mapM]. unfold cos_search_wid, item. rewrite Hm, Ep. cbn [negb bind]. rewrite Ei. cbn [bind]. rewrite Hd.
    unfold mass_weightedUnion. cbn [length Nat.ltb Nat.leb trivial]. rewrite Hi. reflexivity.
  Qed.
  Lemma unit_glob (s : sys F) pat wid p i : globToWordIds pat (slx s) = Ok [wid] -> get (wordinfo (six s)) wid = Some p -> p_dict p = false ->
    inverse_doc_frequency (Zsize (p_map p)) (fofZ (Zsize (docweight (six s)))) = Ok i -> feqb i f1 = true ->
    o_search_glob cos_read (six s) cos_objs (slx s) pat = Ok (Posting wid).
  Proof.
    intros Et Ep Hd Ei Hi. unfold o_search_glob. rewrite Et. cbn [bind]. unfold remove_oov. cbn [filter].
    assert (Hm : mem wid (wordinfo (six s)) = true) by (apply mem_get; eauto). rewrite Hm.
    unfold cos_objs. cbn [mapM]. unfold cos_obj, cos_search_wid, item. rewrite Hm, Ep. cbn [negb bind]. rewrite Ei. cbn [bind]. rewrite Hd.
    unfold o_union. cbn [length Nat.ltb Nat.leb o_trivial]. rewrite Hi. reflexivity.
  Qed.
  Lemma loop_state items (qw : F) : forall ix wid, is_tree ix wid ->
    let r := o_normalise_loop cos_write items qw ix (Posting wid) in
    is_tree (fst r) wid /\ docweight (fst r) = docweight ix.
  Proof.
    induction items as [|[d v] items IH]; intros ix wid H; cbv zeta; [auto|]. cbn [o_normalise_loop].
    destruct (py_div v qw) as [q|e]; [|auto]. cbn [assign]. destruct (tree_write ix wid d q H) as [H1 _].
    destruct (IH _ wid H1) as [I1 I2]. split; [exact I1|]. rewrite I2. unfold cos_write. destruct (get (wordinfo ix) wid); reflexivity.
  Qed.

  Variables (space : char -> bool) (upper : str -> str) (qpipeline : list elem).
  Lemma unit_query (s : sys F) query pat ign wid p i qw t :
    parseQuery space upper (fun t => parseTerms qpipeline (TxStr t)) isGlob query = POk (NGlob pat, ign) ->
    globToWordIds pat (slx s) = Ok [wid] -> termToWordIds pipeline t (slx s) = [wid] ->
    get (wordinfo (six s)) wid = Some p -> p_dict p = false -> is_empty (p_map p) = false ->
    inverse_doc_frequency (Zsize (p_map p)) (fofZ (Zsize (docweight (six s)))) = Ok i -> feqb i f1 = true ->
    cos_query_weight pipeline s [TxStr pat] = Ok qw -> feqb (norm qw) f0 = false ->
    search pipeline cos_search_wids
      (fst (o_apply cos_read cos_write space upper qpipeline pipeline cos_objs (cos_query_weight pipeline) s query)) t =
    Ok (Some (divided (norm qw) (p_map p))).
  Proof.
    intros Hq Hg Ht Ep Hd He Ei Hi Hqw Hn. unfold o_apply. rewrite Hq.
    assert (Ex : o_execute cos_read (six s) pipeline cos_objs (slx s) (NGlob pat) = Ok (Some (Posting wid))).
    { cbn [o_execute]. rewrite (unit_glob s pat wid p i Hg Ep Hd Ei Hi). reflexivity. }
    rewrite Ex. cbn [val]. assert (Er : cos_read (six s) wid = p_map p) by (unfold cos_read; rewrite Ep; reflexivity). rewrite Er, He.
    change (map term_text (terms (NGlob pat))) with [TxStr pat]. rewrite Hqw. cbv zeta. fold (norm qw).
    assert (Tr : is_tree (six s) wid) by (exists p; auto).
    destruct (tree_loop (elts (p_map p)) (norm qw) (six s) wid Tr) as (ix' & El & Hr). rewrite Er, (normalise_loop_ok _ _ Hn) in El, Hr.
    specialize (Hr _ eq_refl). destruct (loop_state (elts (p_map p)) (norm qw) (six s) wid Tr) as [(p' & Ep' & Hd') Hw].
    rewrite El in *. cbn [rmap fst] in *.
    unfold cos_read in Hr. rewrite Ep' in Hr. rewrite <- Hr.
    apply (unit_search (mkSys (slx s) ix') t wid p' i); cbn [slx six]; try assumption.
    rewrite Hr, Hw. unfold divided. replace (Zsize (mmap (fun _ v => f32 (fdiv v (norm qw))) (p_map p))) with (Zsize (p_map p)) by (unfold Zsize; rewrite size_mmap; reflexivity).
    exact Ei.
  Qed.
End Glob.

(** ** The query *)
Definition unit_hist : list top := big (Z.to_nat (docs_n - 1)) (Z.to_nat (docs_N - docs_n - 1)).
Lemma unit_docs : Zsize (docs_of ascii_pipeline unit_hist) = docs_N /\
  (forall w, In w [w1; w2; w3] -> doc_freq (docs_of ascii_pipeline unit_hist) w = docs_n) /\
  get (docs_of ascii_pipeline unit_hist) 1 = Some [w1; w2; w3].
Proof.
  unfold unit_hist. assert (H : 1 <= docs_n /\ docs_n + 1 <= docs_N) by (unfold docs_n, docs_N; lia). revert H.
  generalize docs_n docs_N. intros n N H. pose proof (big_docs (Z.to_nat (n - 1)) (Z.to_nat (N - n - 1))) as (H1 & H2 & H3). cbv zeta in *.
  split; [rewrite H1; lia|]. split; [intros w Hw; rewrite (H2 w Hw); lia|exact H3].
Qed.
Lemma unit_ok : history_ok ascii_pipeline unit_hist.
Proof. unfold unit_hist. generalize (Z.to_nat (docs_n - 1)) (Z.to_nat (docs_N - docs_n - 1)). exact big_ok. Qed.
Lemma unit_lex_run : lex_run ascii_pipeline (lex_hist unit_hist) = lx0.
Proof. unfold unit_hist. generalize (Z.to_nat (docs_n - 1)) (Z.to_nat (docs_N - docs_n - 1)). exact big_lex. Qed.
Lemma vocab_1 (E : smap Z (list str)) ws w : get E 1 = Some ws -> In w ws -> In w (vocabulary E).
Proof. intros H Hw. apply vocabulary_In. eauto. Qed.
Opaque unit_hist.
Definition v_before : b64 := of_b32 (to_b32 (Bdiv mode_NE one (Bsqrt mode_NE (b64_of 3 0)))).
Definition q2 : b64 := Bsqrt mode_NE (b64_of 2 0).
Definition v_after : b64 := of_b32 (to_b32 (Bdiv mode_NE v_before q2)).
Section Unit.
  Variable ln : b64 -> b64.
  Hypothesis Hln : rounded_ln ln.
  Hypothesis Hsane : sane_ln ln.
  Local Instance AL : Arith b64 := Arith_b64 ln.
  Local Instance SL : SafeArith b64 := safe_b64 ln Hsane.
  Local Instance EL : SoundEq b64 := sound_b64 ln.
  Local Notation D := (docs_of ascii_pipeline unit_hist).
  Local Notation st := (cos_state (AF := AL) ascii_pipeline unit_hist).

  Lemma unit_idf w : In w [w1; w2; w3] -> idf D w = one.
  Proof.
    intros Hw. destruct unit_docs as (H1 & H2 & _). unfold idf. rewrite H1, (H2 w Hw). exact (ln_xb ln Hln).
  Qed.
  Lemma unit_vocab w : In w [w1; w2; w3] -> In w (vocabulary D).
  Proof. intros Hw. destruct unit_docs as (_ & _ & H3). apply (vocab_1 _ _ _ H3 Hw). Qed.
  Lemma unit_lex : slx st = lx0.
  Proof. destruct (cos_state_ok (F := b64) ascii_pipeline unit_hist unit_ok) as (_ & H & _). rewrite H. exact unit_lex_run. Qed.
  Lemma unit_value : f32 (cosine_weight w3 [w1; w2; w3]) = v_before.
  Proof.
    assert (Ht : forall w, In w [w1; w2; w3] -> term_weight w [w1; w2; w3] = one).
    { intros w Hw'. unfold term_weight. replace (occurrences w [w1; w2; w3]) with 1; [exact (ln_one_weight ln Hln)|].
      repeat destruct Hw' as [<-|Hw']; try (vm_compute; reflexivity). destruct Hw'. }
    unfold cosine_weight, doc_norm. rewrite (Ht w3) by (cbn; auto).
    replace (distinct [w1; w2; w3]) with [w1; w2; w3] by (vm_compute; reflexivity).
    cbn [map]. rewrite !Ht by (cbn; auto).
    assert (E : lsum [fmul one one; fmul one one; fmul one one] = b64_of 3 0).
    { unfold lsum; cbn [fold_left]; cbn [fadd fmul f0 AL Arith_b64]; apply (B2SF_inj 53 1024); vm_compute; reflexivity. }
    rewrite E. exact eq_refl.
  Qed.
  Lemma unit_posting : exists p, get (wordinfo (six st)) 3 = Some p /\ p_dict p = false /\ is_empty (p_map p) = false /\
    inverse_doc_frequency (Zsize (p_map p)) (fofZ (Zsize (docweight (six st)))) = Ok one /\ get (p_map p) 1 = Some v_before.
  Proof.
    destruct (cos_state_ok (F := b64) ascii_pipeline unit_hist unit_ok) as (_ & _ & Hi).
    assert (Hw : In w3 [w1; w2; w3]) by (cbn; auto). pose proof (unit_vocab w3 Hw) as Hv.
    destruct (posting_item f32 cos_fr cos_keys _ _ Hi w3 Hv) as (p & Ep & Hp).
    assert (Ewid : get_wid (slx st) w3 = 3) by (rewrite unit_lex; vm_compute; reflexivity).
    pose proof (posting_size f32 cos_fr cos_keys _ _ Hi w3) as Hs. rewrite <- Hp in Hs.
    destruct unit_docs as (H1 & H2 & H3). rewrite (H2 w3 Hw) in Hs.
    assert (Hd : p_dict p = false).
    { destruct (p_dict p) eqn:E; [|reflexivity]. pose proof (state_few (F := b64) ascii_pipeline unit_hist _ p Ep E) as Hf.
      rewrite Hs in Hf. unfold docs_n, DICT_CUTOFF in Hf. clear - Hf. lia. }
    exists p. rewrite Ewid in Ep. split; [exact Ep|]. split; [exact Hd|]. split.
    { destruct (is_empty (p_map p)) eqn:E; [|reflexivity]. apply is_empty_spec in E. rewrite E in Hs. clear - Hs. discriminate Hs. }
    split.
    { rewrite Hs, <- (H2 w3 Hw). rewrite (idf_ok D w3 _ Hv (docweight_size f32 cos_fr _ _ Hi)), (unit_idf w3 Hw). reflexivity. }
    pose proof (cos_map_val st D Hi w3 1 [w1; w2; w3] H3 Hw) as Hg. rewrite Ewid in Hg. unfold cos_map in Hg. rewrite Ep, Hd in Hg. rewrite Hg.
    rewrite unit_value. exact eq_refl.
  Qed.
  Lemma unit_weight : cos_query_weight ascii_pipeline st [TxStr (txt "ab?cd")] = Ok q2.
  Proof.
    rewrite (cos_weight_exact ascii_pipeline unit_hist _ unit_ok). apply f_equal. unfold cos_weight.
    replace (flat_map (text_words ascii_pipeline) [TxStr (txt "ab?cd")]) with [w1; w2] by (vm_compute; reflexivity).
    assert (Hc : forall w, In w [w1; w2; w3] -> contains (vocabulary D) w = true).
    { intros w Hw. unfold contains. apply existsb_exists. exists w. split; [apply unit_vocab, Hw|apply eqb_refl]. }
    cbn [filter]. rewrite !Hc by (cbn; auto). cbn [map]. rewrite !unit_idf by (cbn; auto).
    assert (E : lsum [fmul one one; fmul one one] = b64_of 2 0).
    { unfold lsum; cbn [fold_left]; cbn [fadd fmul f0 AL Arith_b64]; apply (B2SF_inj 53 1024); vm_compute; reflexivity. }
    rewrite E. exact eq_refl.
  Qed.
  Lemma unit_changes :
    let s' := fst (o_apply cos_read cos_write ascii_space ascii_upper ascii_pipeline ascii_pipeline cos_objs
      (cos_query_weight ascii_pipeline) st (txt "ab?cd")) in
    exists m m', search ascii_pipeline cos_search_wids st (TxStr w3) = Ok (Some m) /\
      search ascii_pipeline cos_search_wids s' (TxStr w3) = Ok (Some m') /\
      get m 1 = Some v_before /\ get m' 1 = Some v_after.
  Proof.
    destruct unit_posting as (p & Ep & Hd & He & Ei & Hv). cbv zeta.
    assert (Hone : @feqb b64 AL one f1 = true) by (cbn [feqb f1 AL Arith_b64]; vm_compute; reflexivity).
    assert (Hn : norm q2 = q2).
    { unfold norm. cbn [feqb f0 f1 fmul AL Arith_b64]. apply (B2SF_inj 53 1024). vm_compute. reflexivity. }
    assert (Et : termToWordIds ascii_pipeline (TxStr w3) (slx st) = [3]) by (rewrite unit_lex; vm_compute; reflexivity).
    exists (p_map p), (divided (norm q2) (p_map p)).
    split; [exact (unit_search ascii_pipeline st (TxStr w3) 3 p one Et Ep Hd Ei Hone)|].
    split.
    { apply (unit_query ascii_pipeline ascii_space ascii_upper ascii_pipeline st (txt "ab?cd") (txt "ab?cd") [] 3 p one).
      - vm_compute. reflexivity.
      - rewrite unit_lex. vm_compute. reflexivity.
      - exact Et.
      - exact Ep.
      - exact Hd.
      - exact He.
      - exact Ei.
      - exact Hone.
      - exact unit_weight.
      - unfold norm. cbn [feqb f0 f1 fmul AL Arith_b64]. vm_compute. reflexivity. }
    split; [exact Hv|]. unfold divided. rewrite get_mmap, Hv, Hn. reflexivity.
  Qed.
  Lemma before_after : feqb v_before v_after = false.
  Proof. cbn [feqb AL Arith_b64]. vm_compute. reflexivity. Qed.
End Unit.
Lemma unit_refuted ln : rounded_ln ln -> sane_ln ln ->
  exists pipeline h query t, history_ok pipeline h /\
  let s := cos_state (AF := Arith_b64 ln) pipeline h in
  let s' := fst (o_apply (AF := Arith_b64 ln) cos_read (cos_write (AF := Arith_b64 ln)) ascii_space ascii_upper pipeline pipeline
    (cos_objs (AF := Arith_b64 ln)) (cos_query_weight (AF := Arith_b64 ln) pipeline) s query) in
  exists m m' d v v',
    search (AF := Arith_b64 ln) pipeline (cos_search_wids (AF := Arith_b64 ln)) s t = Ok (Some m) /\
    search (AF := Arith_b64 ln) pipeline (cos_search_wids (AF := Arith_b64 ln)) s' t = Ok (Some m') /\
    get m d = Some v /\ get m' d = Some v' /\ Beqb v v' = false.
Proof.
  intros H1 H2. exists ascii_pipeline, unit_hist, (txt "ab?cd"), (TxStr w3). split; [exact unit_ok|]. cbv zeta.
  destruct (unit_changes ln H1 H2) as (m & m' & A & B & C & E). exists m, m', 1, v_before, v_after.
  split; [exact A|]. split; [exact B|]. split; [exact C|]. split; [exact E|]. exact (before_after ln).
Qed.
