(** * Lemmas about the lexicon *)
From Verif Require Import S_lexicon M_lexicon Regex SMap Ord.

(** ** Finding a free id *)
Lemma next_free_raise n words c e : next_free n words c = Raise e ->
  forall k, (k <= n)%nat -> mem (c + Z.of_nat k) words = true.
Proof.
  revert c; induction n as [|n IH]; intros c H k Hk; cbn [next_free] in H; destruct (mem c words) eqn:E; try discriminate.
  - replace k with O by lia. rewrite Z.add_0_r. exact E.
  - destruct k as [|k]; [rewrite Z.add_0_r; exact E|].
    replace (c + Z.of_nat (S k)) with (c + 1 + Z.of_nat k) by lia. apply (IH (c + 1) H). lia.
Qed.
Lemma next_free_total (words : smap Z str) c : exists i, next_free (size words) words c = Ok i.
Proof.
  destruct (next_free (size words) words c) as [i|e] eqn:E; [eauto|exfalso].
  pose proof (next_free_raise _ _ _ _ E) as H.
  set (l := map (fun k => c + Z.of_nat k) (seq 0 (S (size words)))).
  assert (Hnd : NoDup l).
  { apply FinFun.Injective_map_NoDup; [|apply seq_NoDup]. intros a b; lia. }
  assert (Hincl : incl l (keys words)).
  { intros x Hx. apply in_map_iff in Hx as (k & <- & Hk). apply in_seq in Hk. apply keys_mem, H. lia. }
  pose proof (NoDup_incl_length Hnd Hincl) as Hle. unfold l in Hle. rewrite map_length, seq_length in Hle.
  unfold keys in Hle. rewrite map_length in Hle. unfold size in Hle. lia.
Qed.
Lemma next_free_ok n words c i : next_free n words c = Ok i -> c <= i /\ mem i words = false.
Proof.
  revert c; induction n as [|n IH]; intros c; cbn [next_free]; destruct (mem c words) eqn:E; try discriminate.
  - intros [= <-]. split; [lia|exact E].
  - intros H. apply IH in H. split; [lia|apply H].
  - intros [= <-]. split; [lia|exact E].
Qed.
Lemma next_free_here n words c : mem c words = false -> next_free n words c = Ok c.
Proof. intros H. destruct n; cbn [next_free]; rewrite H; reflexivity. Qed.

(** ** Bijection *)
Definition bij (lx : lex) : Prop :=
  (forall w i, get (lwids lx) w = Some i <-> get (lwords lx) i = Some w) /\
  (forall i w, get (lwords lx) i = Some w -> 0 < i) /\
  0 <= lcount lx.
Definition grows (lx lx' : lex) : Prop :=
  (forall w i, get (lwids lx) w = Some i -> get (lwids lx') w = Some i) /\
  (forall i w, get (lwords lx) i = Some w -> get (lwords lx') i = Some w).
Lemma grows_refl lx : grows lx lx.
Proof. split; auto. Qed.
Lemma grows_trans a b c : grows a b -> grows b c -> grows a c.
Proof. intros [H1 H2] [H3 H4]. split; auto. Qed.

Lemma getWordIdCreate_ok w lx : bij lx ->
  exists lx' i, getWordIdCreate w lx = (lx', Ok i) /\ bij lx' /\ grows lx lx' /\ get (lwids lx') w = Some i /\
    (forall w', w' <> w -> get (lwids lx') w' = get (lwids lx) w').
Proof.
  intros (H1 & H2 & H3). unfold getWordIdCreate. destruct (get (lwids lx) w) as [i|] eqn:E.
  - exists lx, i. splits; auto; [unfold bij; auto|apply grows_refl].
  - unfold new_wid. destruct (next_free_total (lwords lx) (lcount lx + 1)) as [i Hi]. rewrite Hi.
    apply next_free_ok in Hi as [Hc Hf]. apply mem_false in Hf.
    eexists _, i. splits; [reflexivity| | | |]; cbn [lwids lwords lcount].
    + unfold bij; cbn [lwids lwords lcount]. splits.
      * intros w' i'. rewrite !get_put. destruct (eqb w' w) eqn:Ew, (eqb i' i) eqn:Ei.
        -- apply eqb_eq in Ew, Ei. subst. tauto.
        -- apply eqb_eq in Ew; subst w'. apply eqb_neq in Ei. split; [intros [= <-]; contradiction|].
           intros Hg. apply H1 in Hg. congruence.
        -- apply eqb_eq in Ei; subst i'. apply eqb_neq in Ew. split; [|intros [= <-]; contradiction].
           intros Hg. apply H1 in Hg. congruence.
        -- apply H1.
      * intros i' w'. rewrite get_put. destruct (eqb i' i) eqn:Ei.
        -- apply eqb_eq in Ei; subst i'. intros _. lia.
        -- apply H2.
      * lia.
    + split; cbn [lwids lwords].
      * intros w' i' Hg. rewrite get_put. destruct (eqb w' w) eqn:Ew; [|exact Hg]. apply eqb_eq in Ew; subst. congruence.
      * intros i' w' Hg. rewrite get_put. destruct (eqb i' i) eqn:Ei; [|exact Hg]. apply eqb_eq in Ei; subst. congruence.
    + rewrite get_put, eqb_refl. reflexivity.
    + intros w' Hn. apply eqb_neq in Hn. rewrite get_put, Hn. reflexivity.
Qed.

Lemma create_all_ok ws lx : bij lx ->
  exists lx' ids, create_all ws lx = (lx', Ok ids) /\ bij lx' /\ grows lx lx' /\
    ids = map (get_wid lx') ws /\ (forall w, In w ws -> exists i, get (lwids lx') w = Some i) /\
    (forall w, ~ In w ws -> get (lwids lx') w = get (lwids lx) w).
Proof.
  revert lx; induction ws as [|w ws IH]; intros lx Hb; cbn [create_all].
  - exists lx, []. splits; auto using grows_refl. intros w [].
  - destruct (getWordIdCreate_ok w lx Hb) as (lx1 & i & -> & Hb1 & Hg1 & Hw & Ho).
    destruct (IH lx1 Hb1) as (lx2 & ids & -> & Hb2 & Hg2 & Hids & Hk & Hr).
    exists lx2, (i :: ids). splits; auto.
    + eapply grows_trans; eassumption.
    + cbn [map]. unfold get_wid at 1. rewrite (proj1 Hg2 _ _ Hw), Hids. reflexivity.
    + intros w' [<-|Hin]; [exists i; apply Hg2, Hw|apply Hk, Hin].
    + intros w' Hn. rewrite Hr by (intros Hin; apply Hn; right; exact Hin). apply Ho.
      intros ->. apply Hn. left; reflexivity.
Qed.

Section Run.
  Variable pipeline : list elem.

  Lemma bij_new : bij lex_new.
  Proof.
    unfold bij, lex_new; cbn [lwids lwords lcount]. splits.
    - intros w i. rewrite !get_empty. split; discriminate.
    - intros i w. rewrite get_empty. discriminate.
    - lia.
  Qed.
  Lemma lex_step_ok lx o : bij lx -> (forall n, o = LCounter n -> 0 <= n) ->
    bij (lex_step pipeline lx o) /\ grows lx (lex_step pipeline lx o).
  Proof.
    intros Hb Ho. destruct o as [t|n]; cbn [lex_step].
    - unfold sourceToWordIds.
      destruct (create_all_ok (run_pipeline pipeline (text2list t)) lx Hb) as (lx' & ids & -> & H1 & H2 & _). auto.
    - destruct Hb as (H1 & H2 & _). split; [|split; auto]. unfold bij; cbn. splits; auto.
  Qed.
  Lemma lex_fold_ok (h : list lop) lx : bij lx -> counter_ok h ->
    bij (fold_left (lex_step pipeline) h lx) /\ grows lx (fold_left (lex_step pipeline) h lx).
  Proof.
    revert lx; induction h as [|o h IH]; intros lx Hb Hc; cbn [fold_left].
    - split; [exact Hb|apply grows_refl].
    - destruct (lex_step_ok lx o Hb) as [Hb1 Hg1].
      { intros n ->. apply Hc. left; reflexivity. }
      destruct (IH _ Hb1) as [Hb2 Hg2].
      { intros n Hn. apply Hc. right; exact Hn. }
      split; [exact Hb2|eapply grows_trans; eassumption].
  Qed.
  Lemma lex_run_bij (h : list lop) : counter_ok h -> bij (lex_run pipeline h).
  Proof. intros Hc. apply lex_fold_ok; [apply bij_new|exact Hc]. Qed.

  (** What a client sees of the bijection. *)
  Lemma unknown_word_id lx i : ~ In i (lex_wids lx) -> get_word lx i = Raise KeyError.
  Proof.
    intros H. unfold get_word. destruct (get (lwords lx) i) as [w|] eqn:E; [|reflexivity].
    destruct H. apply keys_In. eauto.
  Qed.
  Lemma lexicon_bijection (h : list lop) : counter_ok h ->
    (forall w i, i <> 0 -> (get_wid (lex_run pipeline h) w = i <-> get_word (lex_run pipeline h) i = Ok w)) /\
    (forall w, In w (lex_words (lex_run pipeline h)) <-> get_wid (lex_run pipeline h) w <> 0) /\
    (forall i, In i (lex_wids (lex_run pipeline h)) <-> exists w, get_word (lex_run pipeline h) i = Ok w) /\
    (forall i w, get_word (lex_run pipeline h) i = Ok w -> 0 < i).
  Proof.
    intros Hc. pose proof (lex_run_bij h Hc) as (H1 & H2 & _). set (lx := lex_run pipeline h) in *. splits.
    - intros w i Hi. unfold get_wid, get_word. split.
      + intros H. destruct (get (lwids lx) w) as [j|] eqn:E; [|congruence]. subst j. apply H1 in E. rewrite E. reflexivity.
      + intros H. destruct (get (lwords lx) i) as [w'|] eqn:E; [|discriminate]. injection H as ->. apply H1 in E.
        rewrite E. reflexivity.
    - intros w. unfold lex_words, get_wid. rewrite keys_In. split.
      + intros [i Hi]. rewrite Hi. apply H1 in Hi. apply H2 in Hi. lia.
      + destruct (get (lwids lx) w) as [i|]; [eauto|congruence].
    - intros i. unfold lex_wids, get_word. rewrite keys_In. split.
      + intros [w Hw]. rewrite Hw. eauto.
      + intros [w Hw]. destruct (get (lwords lx) i) as [w'|]; [eauto|discriminate].
    - intros i w. unfold get_word. destruct (get (lwords lx) i) as [w'|] eqn:E; [|discriminate]. intros _. eapply H2; exact E.
  Qed.
  Lemma lexicon_permanent (h1 h2 : list lop) w i : counter_ok (h1 ++ h2) ->
    (get_wid (lex_run pipeline h1) w = i -> i <> 0 -> get_wid (lex_run pipeline (h1 ++ h2)) w = i) /\
    (get_word (lex_run pipeline h1) i = Ok w -> get_word (lex_run pipeline (h1 ++ h2)) i = Ok w).
  Proof.
    intros Hc. assert (Hb : bij (lex_run pipeline h1)).
    { apply lex_run_bij. intros n Hn. apply Hc, in_or_app. left; exact Hn. }
    assert (Hg : grows (lex_run pipeline h1) (lex_run pipeline (h1 ++ h2))).
    { unfold lex_run. rewrite fold_left_app. apply lex_fold_ok; [exact Hb|].
      intros n Hn. apply Hc, in_or_app. right; exact Hn. }
    destruct Hg as [G1 G2]. split.
    - intros H Hi. unfold get_wid in *. destruct (get (lwids (lex_run pipeline h1)) w) as [j|] eqn:E; [|congruence].
      rewrite (G1 _ _ E). exact H.
    - intros H. unfold get_word in *. destruct (get (lwords (lex_run pipeline h1)) i) as [w'|] eqn:E; [|discriminate].
      rewrite (G2 _ _ E). exact H.
  Qed.
  Lemma source_total (h : list lop) t : counter_ok h ->
    exists ids, snd (sourceToWordIds pipeline t (lex_run pipeline h)) = Ok ids /\
      Forall (fun i => 0 < i) ids /\
      forall h2, counter_ok h2 -> termToWordIds pipeline t (lex_run pipeline (h ++ LText t :: h2)) = ids.
  Proof.
    intros Hc. pose proof (lex_run_bij h Hc) as Hb. unfold sourceToWordIds.
    destruct (create_all_ok (run_pipeline pipeline (text2list t)) _ Hb) as (lx' & ids & E & Hb' & Hg & Hids & Hk & _).
    rewrite E. exists ids. cbn [snd]. splits.
    - reflexivity.
    - subst ids. apply Forall_forall. intros i Hi. apply in_map_iff in Hi as (w & <- & Hw).
      destruct (Hk w Hw) as [i Hi]. unfold get_wid. rewrite Hi. apply Hb' in Hi. eapply Hb'; exact Hi.
    - intros h2 Hc2. unfold lex_run. rewrite fold_left_app. cbn [fold_left lex_step].
      fold (lex_run pipeline h). unfold sourceToWordIds. rewrite E. cbn [fst].
      destruct (lex_fold_ok h2 lx' Hb' Hc2) as [_ [G1 _]].
      unfold termToWordIds. rewrite Hids. apply map_ext_in. intros w Hw. unfold get_wid.
      destruct (Hk w Hw) as [i Hi]. rewrite Hi, (G1 _ _ Hi). reflexivity.
  Qed.

  (** ** Without counter changes by others ids are handed out in order *)
  Definition linv (lx : lex) (ds : list str) : Prop :=
    NoDup ds /\ lcount lx = Zlen ds /\
    (forall w i, get (lwids lx) w = Some i <-> 1 <= i /\ nth_error ds (Z.to_nat (i - 1)) = Some w) /\
    (forall w i, get (lwords lx) i = Some w <-> 1 <= i /\ nth_error ds (Z.to_nat (i - 1)) = Some w).
  Definition add_word (ds : list str) (w : str) : list str := if existsb (eqb w) ds then ds else ds ++ [w].

  Lemma known_in lx ds w : linv lx ds -> ((exists i, get (lwids lx) w = Some i) <-> In w ds).
  Proof.
    intros (_ & _ & H & _). split.
    - intros [i Hi]. apply H in Hi as [_ Hi]. eapply nth_error_In; exact Hi.
    - intros Hin. apply In_nth_error in Hin as [n Hn]. exists (Z.of_nat n + 1). apply H. split; [lia|].
      replace (Z.to_nat (Z.of_nat n + 1 - 1)) with n by lia. exact Hn.
  Qed.
  Lemma nth_snoc (ds : list str) w i w' : 1 <= i ->
    nth_error (ds ++ [w]) (Z.to_nat (i - 1)) = Some w' <->
    (i = Zlen ds + 1 /\ w' = w) \/ nth_error ds (Z.to_nat (i - 1)) = Some w'.
  Proof.
    intros Hi. unfold Zlen. destruct (Nat.lt_trichotomy (Z.to_nat (i - 1)) (length ds)) as [H|[H|H]].
    - rewrite nth_error_app1 by exact H. split; [auto|]. intros [[H' _]|H']; [lia|exact H'].
    - rewrite nth_error_app2, H, Nat.sub_diag by lia. cbn. split.
      + intros [= <-]. left. split; [lia|reflexivity].
      + intros [[_ ->]|H']; [reflexivity|]. assert (nth_error ds (length ds) = None) by (apply nth_error_None; lia). congruence.
    - rewrite nth_error_app2 by lia. destruct (Z.to_nat (i - 1) - length ds)%nat as [|m] eqn:Em; [lia|]. cbn.
      destruct m; cbn; (split; [discriminate|]; intros [[H' _]|H']; [lia|];
        assert (nth_error ds (Z.to_nat (i - 1)) = None) by (apply nth_error_None; lia); congruence).
  Qed.
  Lemma getWordIdCreate_linv w lx ds : linv lx ds -> linv (fst (getWordIdCreate w lx)) (add_word ds w).
  Proof.
    intros Hl. pose proof (known_in _ _ w Hl) as Hk. pose proof Hl as (H1 & H2 & H3 & H4).
    unfold getWordIdCreate, add_word. destruct (get (lwids lx) w) as [i|] eqn:E; cbn [fst].
    - assert (Hin : In w ds) by (apply Hk; eauto).
      rewrite (proj2 (existsb_eqb_In ds w) Hin). exact Hl.
    - assert (Hnin : ~ In w ds) by (intros Hin; apply Hk in Hin as [i Hi]; discriminate).
      destruct (existsb (eqb w) ds) eqn:Ex; [apply existsb_eqb_In in Ex; contradiction|].
      assert (Hf : mem (lcount lx + 1) (lwords lx) = false).
      { apply mem_false. destruct (get (lwords lx) (lcount lx + 1)) as [w'|] eqn:Eg; [|reflexivity].
        apply H4 in Eg as [_ Eg]. assert (nth_error ds (Z.to_nat (lcount lx + 1 - 1)) = None).
        { apply nth_error_None. unfold Zlen in H2. lia. } congruence. }
      unfold new_wid. rewrite next_free_here by exact Hf. cbn [fst].
      assert (Hn0 : nth_error ds (Z.to_nat (lcount lx + 1 - 1)) = None) by (apply nth_error_None; unfold Zlen in H2; lia).
      unfold linv; cbn [lwids lwords lcount]. splits.
      + apply NoDup_rev in H1. rewrite <- (rev_involutive (ds ++ [w])). apply NoDup_rev. rewrite rev_unit. constructor; [|exact H1].
        rewrite <- in_rev. exact Hnin.
      + rewrite Zlen_app. unfold Zlen in *. cbn [length]. lia.
      + intros w' i. rewrite get_put. destruct (eqb w' w) eqn:Ew.
        * apply eqb_eq in Ew; subst w'. split.
          -- intros [= <-]. split; [unfold Zlen in H2; lia|]. apply nth_snoc; [unfold Zlen in H2; lia|]. left. split; [lia|reflexivity].
          -- intros [Hi Hn]. apply nth_snoc in Hn; [|exact Hi]. destruct Hn as [[-> _]|Hn]; [f_equal; lia|].
             exfalso. apply Hnin. eapply nth_error_In; exact Hn.
        * rewrite H3. split.
          -- intros [Hi Hn]. split; [exact Hi|]. apply nth_snoc; auto.
          -- intros [Hi Hn]. split; [exact Hi|]. apply nth_snoc in Hn; [|exact Hi]. destruct Hn as [[_ ->]|Hn]; [|exact Hn].
             rewrite eqb_refl in Ew. discriminate.
      + intros w' i. rewrite get_put. destruct (eqb i (lcount lx + 1)) eqn:Ei.
        * apply eqb_eq in Ei; subst i. split.
          -- intros [= <-]. split; [unfold Zlen in H2; lia|]. apply nth_snoc; [unfold Zlen in H2; lia|]. left. split; [lia|reflexivity].
          -- intros [Hi Hn]. apply nth_snoc in Hn; [|exact Hi]. destruct Hn as [[_ ->]|Hn]; [reflexivity|congruence].
        * apply eqb_neq in Ei. rewrite H4. split.
          -- intros [Hi Hn]. split; [exact Hi|]. apply nth_snoc; auto.
          -- intros [Hi Hn]. split; [exact Hi|]. apply nth_snoc in Hn; [|exact Hi]. destruct Hn as [[Hc _]|Hn]; [|exact Hn]. lia.
  Qed.
  Lemma linv_bij lx ds : linv lx ds -> bij lx.
  Proof.
    intros (_ & H2 & H3 & H4). unfold bij. splits.
    - intros w i. rewrite H3, H4. reflexivity.
    - intros i w Hi. apply H4 in Hi. lia.
    - rewrite H2. unfold Zlen. lia.
  Qed.
  Lemma create_all_linv ws lx ds : linv lx ds -> linv (fst (create_all ws lx)) (fold_left add_word ws ds).
  Proof.
    revert lx ds; induction ws as [|w ws IH]; intros lx ds Hl; cbn [create_all fold_left]; [exact Hl|].
    pose proof (getWordIdCreate_linv w lx ds Hl) as Hl1.
    destruct (getWordIdCreate_ok w lx (linv_bij _ _ Hl)) as (lx1 & i & E & Hb1 & _). rewrite E in *. cbn [fst] in Hl1.
    specialize (IH lx1 _ Hl1). destruct (create_all_ok ws lx1 Hb1) as (lx2 & ids & E2 & _). rewrite E2 in *. exact IH.
  Qed.
  Lemma lex_run_linv (h : list lop) : no_drift h -> linv (lex_run pipeline h) (distinct (words_of pipeline h)).
  Proof.
    unfold lex_run, distinct. intros Hn. change (fun ds w => if existsb (eqb w) ds then ds else ds ++ [w]) with add_word.
    assert (H0 : linv lex_new []).
    { unfold linv, lex_new; cbn [lwids lwords lcount]. splits; [constructor|reflexivity| |];
        intros w i; rewrite get_empty; (split; [discriminate|]; intros [_ H]; destruct (Z.to_nat (i - 1)); discriminate). }
    revert H0. generalize lex_new, (@nil str). induction h as [|o h IH]; intros lx ds H0; cbn [fold_left words_of flat_map].
    - exact H0.
    - rewrite fold_left_app. destruct o as [t|n]; [|destruct (Hn n (or_introl eq_refl))].
      apply IH; [intros n Hin; apply (Hn n); right; exact Hin|]. cbn [lex_step]. apply create_all_linv, H0.
  Qed.

  Lemma lexicon_in_order (h : list lop) : no_drift h ->
    lex_wordCount (lex_run pipeline h) = Zlen (distinct (words_of pipeline h)) /\
    lex_wordCount (lex_run pipeline h) = Zlen (lex_words (lex_run pipeline h)) /\
    forall w i, i <> 0 -> (get_wid (lex_run pipeline h) w = i <->
      1 <= i /\ nth_error (distinct (words_of pipeline h)) (Z.to_nat (i - 1)) = Some w).
  Proof.
    intros Hn. pose proof (lex_run_linv h Hn) as Hl. set (lx := lex_run pipeline h) in *.
    set (ds := distinct (words_of pipeline h)) in *. pose proof Hl as (H1 & H2 & H3 & H4). splits.
    - exact H2.
    - unfold lex_wordCount. rewrite H2. unfold Zlen. f_equal. apply Permutation_length.
      apply NoDup_Permutation; [exact H1|apply keys_NoDup|]. intros w. unfold lex_words. rewrite keys_In.
      symmetry. apply known_in, Hl.
    - intros w i Hi. unfold get_wid. split.
      + intros H. destruct (get (lwids lx) w) as [j|] eqn:E; [|congruence]. subst j. apply H3, E.
      + intros H. apply H3 in H. rewrite H. reflexivity.
  Qed.
  Lemma distinct_spec l : NoDup (distinct l) /\ forall w, In w (distinct l) <-> In w l.
  Proof.
    unfold distinct. assert (H : forall ds, NoDup ds -> NoDup (fold_left add_word l ds) /\
      forall w, In w (fold_left add_word l ds) <-> In w ds \/ In w l).
    { induction l as [|x l IH]; intros ds Hd; cbn [fold_left].
      - split; [exact Hd|]. intros w. cbn. tauto.
      - unfold add_word at 2 4. destruct (existsb (eqb x) ds) eqn:E.
        + destruct (IH ds Hd) as [A B]. split; [exact A|]. intros w. rewrite B. cbn. apply existsb_eqb_In in E.
          split; [tauto|]. intros [?|[<-|?]]; auto.
        + destruct (IH (ds ++ [x])) as [A B].
          * rewrite <- (rev_involutive (ds ++ [x])). apply NoDup_rev. rewrite rev_unit. constructor; [|apply NoDup_rev, Hd].
            rewrite <- in_rev. intros Hin. apply existsb_eqb_In in Hin. congruence.
          * split; [exact A|]. intros w. rewrite B, in_app_iff. cbn. tauto. }
    destruct (H [] (NoDup_nil _)) as [A B]. split; [exact A|]. intros w. rewrite (B w). cbn. tauto.
  Qed.
End Run.

(** ** Glob patterns *)
Definition glob_char (c : char) : regex :=
  if c =? chr_star then RStar dot else if c =? chr_qm then dot else lit c.
Definition src_char (c : char) : str :=
  if c =? chr_star then [46; 42] else if c =? chr_qm then [46] else re_escape c.

Lemma escaped_ok c : memZ c special_chars = true -> is_ascii_alnum c = false.
Proof.
  intros H. apply memZ_In in H. unfold special_chars in H. cbn in H.
  repeat (destruct H as [<-|H]; [reflexivity|]). destruct H.
Qed.
Lemma literal_parse c s cur rep br : memZ c special_chars = false ->
  re_parse (c :: s) cur rep br = re_parse s (lit c :: cur) true br.
Proof.
  intros H. cbn [re_parse]. unfold special_chars, memZ in *. cbn [existsb] in *.
  repeat rewrite orb_false_iff in H. destruct H as (? & ? & ? & ? & ? & ? & ? & ? & ? & ? & ? & ? & ? & ? & ? & _).
  replace (c =? 124) with false by lia. replace (c =? 46) with false by lia. replace (c =? 36) with false by lia.
  replace (c =? 42) with false by lia. replace (c =? 43) with false by lia. replace (c =? 63) with false by lia.
  replace (c =? 92) with false by lia. replace (c =? 94) with false by lia. replace (c =? 40) with false by lia.
  replace (c =? 41) with false by lia. replace (c =? 91) with false by lia. replace (c =? 123) with false by lia.
  reflexivity.
Qed.
Lemma src_parse c s cur rep br :
  exists rep', re_parse (src_char c ++ s) cur rep br = re_parse s (glob_char c :: cur) rep' br.
Proof.
  unfold src_char, glob_char, re_escape. destruct (c =? chr_star); [exists false; reflexivity|].
  destruct (c =? chr_qm); [exists true; reflexivity|]. exists true.
  destruct (memZ c special_chars) eqn:E; cbn [app].
  - cbn [re_parse]. cbn. rewrite escaped_ok by exact E. reflexivity.
  - apply literal_parse, E.
Qed.
Definition prefix_char (c : char) : regex := if c =? 46 then dot else lit c.
Lemma plain_parse prefix s cur rep br : plain prefix ->
  exists rep', re_parse (prefix ++ s) cur rep br = re_parse s (rev (map prefix_char prefix) ++ cur) rep' br.
Proof.
  revert cur rep; induction prefix as [|c prefix IH]; intros cur rep Hp; cbn [app map rev].
  - exists rep. reflexivity.
  - assert (Hc : ~ In c re_meta) by (apply Hp; left; reflexivity).
    destruct (IH (prefix_char c :: cur) true) as [rep' H]; [intros x Hx; apply Hp; right; exact Hx|].
    exists rep'. rewrite <- app_assoc. cbn [app]. rewrite <- H. unfold prefix_char.
    assert (E : forall n, In n re_meta -> c =? n = false).
    { intros n Hn. apply Z.eqb_neq. intros ->. exact (Hc Hn). }
    cbn [re_parse]. unfold memZ; cbn [existsb].
    rewrite (E 124), (E 36), (E 42), (E 43), (E 63), (E 92), (E 94), (E 40), (E 41), (E 91), (E 123) by (unfold re_meta; cbn; tauto).
    destruct (c =? 46); reflexivity.
Qed.
Lemma rest_parse rest s cur rep br :
  exists rep', re_parse (flat_map src_char rest ++ s) cur rep br = re_parse s (rev (map glob_char rest) ++ cur) rep' br.
Proof.
  revert cur rep; induction rest as [|c rest IH]; intros cur rep; cbn [flat_map map rev app].
  - exists rep. reflexivity.
  - rewrite <- app_assoc. destruct (src_parse c (flat_map src_char rest ++ s) cur rep br) as [r1 ->].
    destruct (IH (glob_char c :: cur) r1) as [r2 ->]. exists r2. rewrite <- app_assoc. reflexivity.
Qed.
Lemma compile_glob prefix rest : plain prefix ->
  re_compile (glob_regex_source prefix rest) = Ok (rseq (map prefix_char prefix ++ map glob_char rest ++ [REnd])).
Proof.
  intros Hp. unfold re_compile, glob_regex_source.
  change (fun c => if c =? chr_star then [46; 42] else if c =? chr_qm then [46] else re_escape c) with src_char.
  destruct (plain_parse prefix (flat_map src_char rest ++ [36]) [] false [] Hp) as [r1 H1].
  destruct (rest_parse rest [36] (rev (map prefix_char prefix) ++ []) r1 []) as [r2 H2].
  etransitivity; [exact H1|]. etransitivity; [exact H2|].
  cbn [re_parse]. cbn. rewrite !rev_app_distr, !rev_involutive. cbn [rev app].
  rewrite <- app_assoc. reflexivity.
Qed.

Lemma mt_seq r1 r2 s : mt (RSeq r1 r2) s <> [] <-> exists s1, In s1 (mt r1 s) /\ mt r2 s1 <> [].
Proof.
  cbn [mt]. split.
  - intros H. destruct (flat_map (mt r2) (mt r1 s)) as [|x l] eqn:E; [contradiction|].
    assert (Hx : In x (flat_map (mt r2) (mt r1 s))) by (rewrite E; left; reflexivity).
    apply in_flat_map in Hx as (s1 & H1 & H2). exists s1. split; [exact H1|]. intros E'. rewrite E' in H2. destruct H2.
  - intros (s1 & H1 & H2) E. destruct (mt r2 s1) as [|x l] eqn:E2; [contradiction|].
    assert (Hx : In x (flat_map (mt r2) (mt r1 s))).
    { apply in_flat_map. exists s1. split; [exact H1|]. rewrite E2. left; reflexivity. }
    rewrite E in Hx. destruct Hx.
Qed.
Lemma munch_In p s s1 : In s1 (munch p s) <-> exists u, s = u ++ s1 /\ Forall (fun c => p c = true) u.
Proof.
  revert s1; induction s as [|c s IH]; intros s1; cbn [munch].
  - split.
    + intros [<-|[]]. exists []. auto.
    + intros (u & E & _). symmetry in E. apply app_eq_nil in E as [_ ->]. left; reflexivity.
  - destruct (p c) eqn:Ec.
    + rewrite in_app_iff, IH. split.
      * intros [(u & -> & Hu)|[<-|[]]]; [exists (c :: u); auto|exists []; auto].
      * intros (u & E & Hu). destruct u as [|c' u].
        -- cbn in E. subst s1. right; left; reflexivity.
        -- injection E as <- ->. inversion Hu; subst. left. exists u. auto.
    + split.
      * intros [<-|[]]. exists []; auto.
      * intros (u & E & Hu). destruct u as [|c' u]; [left; exact E|].
        injection E as <- ->. inversion Hu; subst. congruence.
Qed.
Lemma dot_suffix (s u v : str) : ~ In 10 s -> s = u ++ v -> ~ In 10 v /\ Forall (fun c => negb (c =? 10) = true) u.
Proof.
  intros Hn ->. split; [intros H; apply Hn, in_or_app; auto|]. apply Forall_forall. intros c Hc.
  destruct (c =? 10) eqn:E; [|reflexivity]. apply Z.eqb_eq in E; subst. destruct Hn. apply in_or_app; auto.
Qed.

Lemma glob_regex_ok pat s : ~ In 10 s ->
  (mt (rseq (map glob_char pat ++ [REnd])) s <> [] <-> glob_match pat s).
Proof.
  revert s; induction pat as [|c pat IH]; intros s Hs; cbn [map app rseq fold_right glob_match].
  - cbn [mt]. destruct s as [|c [|c' s]]; cbn.
    + split; [reflexivity|discriminate].
    + destruct (c =? 10) eqn:E; cbn.
      * apply Z.eqb_eq in E; subst. destruct Hs. left; reflexivity.
      * split; [contradiction|discriminate].
    + split; [contradiction|discriminate].
  - change (fold_right RSeq REps (map glob_char pat ++ [REnd])) with (rseq (map glob_char pat ++ [REnd])).
    rewrite mt_seq. unfold glob_char at 1. destruct (c =? chr_star).
    + unfold dot. setoid_rewrite mt_star_chr. split.
      * intros (s1 & H1 & H2). apply munch_In in H1 as (u & -> & Hu). exists u, s1. split; [reflexivity|].
        apply IH; [|exact H2]. intros H; apply Hs, in_or_app; auto.
      * intros (u & v & E & H). destruct (dot_suffix _ _ _ Hs E) as [Hv Hu]. exists v. split; [|apply IH; assumption].
        apply munch_In. exists u. auto.
    + destruct (c =? chr_qm).
      * split.
        -- intros (s1 & H1 & H2). destruct s as [|x s]; [destruct H1|]. cbn in H1. destruct (negb (x =? 10)); [|destruct H1].
           destruct H1 as [<-|[]]. exists x, s. split; [reflexivity|]. apply IH; [|exact H2]. intros H; apply Hs; right; exact H.
        -- intros (x & v & -> & H). exists v. assert (Hx : negb (x =? 10) = true).
           { destruct (x =? 10) eqn:E; [|reflexivity]. apply Z.eqb_eq in E; subst. destruct Hs. left; reflexivity. }
           split; [cbn; rewrite Hx; left; reflexivity|]. apply IH; [|exact H]. intros Hi; apply Hs; right; exact Hi.
      * split.
        -- intros (s1 & H1 & H2). destruct s as [|x s]; [destruct H1|]. cbn in H1. destruct (x =? c) eqn:E; [|destruct H1].
           destruct H1 as [<-|[]]. apply Z.eqb_eq in E; subst. exists s. split; [reflexivity|].
           apply IH; [|exact H2]. intros H; apply Hs; right; exact H.
        -- intros (v & -> & H). exists v. split; [cbn; rewrite Z.eqb_refl; left; reflexivity|].
           apply IH; [|exact H]. intros Hi; apply Hs; right; exact Hi.
Qed.
(** The prefix of the expression matches the literal prefix of the word. *)
Lemma prefix_regex rs prefix t : ~ In 10 prefix ->
  (mt (rseq (map prefix_char prefix ++ rs)) (prefix ++ t) <> [] <-> mt (rseq rs) t <> []).
Proof.
  induction prefix as [|c prefix IH]; intros Hn; cbn [map app rseq fold_right]; [reflexivity|].
  change (fold_right RSeq REps (map prefix_char prefix ++ rs)) with (rseq (map prefix_char prefix ++ rs)).
  rewrite mt_seq. assert (Hm : mt (prefix_char c) (c :: prefix ++ t) = [prefix ++ t]).
  { unfold prefix_char. destruct (c =? 46); cbn.
    - assert (Hc : c <> 10) by (intros ->; apply Hn; left; reflexivity). apply Z.eqb_neq in Hc. rewrite Hc. reflexivity.
    - rewrite Z.eqb_refl. reflexivity. }
  rewrite Hm. rewrite <- IH by (intros H; apply Hn; right; exact H). split.
  - intros (s1 & [<-|[]] & H). exact H.
  - intros H. eexists; split; [left; reflexivity|exact H].
Qed.
Lemma plain_not_glob c : ~ In c re_meta -> (c =? chr_star) = false /\ (c =? chr_qm) = false.
Proof.
  intros H. split; apply Z.eqb_neq; intros ->; apply H; cbn; tauto.
Qed.
Lemma glob_match_plain prefix rest t : plain prefix -> glob_match (prefix ++ rest) (prefix ++ t) <-> glob_match rest t.
Proof.
  induction prefix as [|x prefix IH]; intros Hp; cbn [app glob_match]; [reflexivity|].
  destruct (plain_not_glob x) as [-> ->]; [apply Hp; left; reflexivity|].
  rewrite <- IH by (intros y Hy; apply Hp; right; exact Hy). split.
  - intros (v & [= ->] & H). exact H.
  - intros H. eauto.
Qed.

(** ** The loop over the keys from the prefix on *)
Lemma startswith_spec s p : startswith s p = true <-> exists t, s = p ++ t.
Proof.
  revert s; induction p as [|c p IH]; intros s; cbn [startswith].
  - split; [intros _; exists s; reflexivity|reflexivity].
  - destruct s as [|x s]; [split; [discriminate|intros [t Ht]; discriminate]|].
    rewrite andb_true_iff, IH, Z.eqb_eq. split.
    + intros [-> [t ->]]. exists t. reflexivity.
    + intros [t [= -> ->]]. eauto.
Qed.
Lemma prefix_le (p t : str) : leb p (p ++ t) = true.
Proof.
  apply leb_le. unfold le. cbn [cmp Ord_list]. induction p as [|c p IH]; cbn.
  - destruct t; discriminate.
  - rewrite Z.compare_refl. exact IH.
Qed.
Lemma prefix_between (p k1 k2 : str) : le p k1 -> le k1 k2 -> startswith k2 p = true -> startswith k1 p = true.
Proof.
  unfold le. cbn [cmp Ord_list]. revert k1 k2; induction p as [|c p IH]; intros k1 k2 H1 H2 H3; [reflexivity|].
  destruct k2 as [|x2 k2]; [discriminate|]. cbn [startswith] in H3. apply andb_true_iff in H3 as [Ex H3].
  apply Z.eqb_eq in Ex; subst x2. destruct k1 as [|x1 k1]; [cbn in H1; contradiction|]. cbn [startswith].
  cbn in H1, H2. destruct (Z.compare_spec c x1) as [E|E|E]; [|destruct (Z.compare_spec x1 c); try lia; contradiction|contradiction].
  subst x1. rewrite Z.compare_refl in H2. rewrite Z.eqb_refl. cbn [andb]. eapply IH; eassumption.
Qed.
Lemma glob_loop_filter prog prefix items : StronglySorted lt (map fst items) ->
  Forall (fun k => le prefix k) (map fst items) ->
  glob_loop prog prefix items =
  map snd (filter (fun p => startswith (fst p) prefix && is_some (re_match prog (fst p))) items).
Proof.
  intros Hs Hp. induction items as [|[k i] items IH]; cbn [glob_loop filter map fst]; [reflexivity|].
  cbn [map fst] in Hs, Hp. inversion Hs as [|? ? Hs' Hlt]; subst. inversion Hp as [|? ? Hpk Hp']; subst.
  destruct (startswith k prefix) eqn:E; cbn [andb].
  - destruct (re_match prog k); cbn [is_some map snd]; rewrite IH by assumption; reflexivity.
  - symmetry. replace (filter _ items) with (@nil (str * Z)); [reflexivity|]. symmetry.
    clear IH Hs Hs' Hp. induction items as [|[k' i'] items IH]; cbn [filter fst]; [reflexivity|].
    cbn [map fst] in *. inversion Hlt; subst. inversion Hp'; subst.
    destruct (startswith k' prefix) eqn:E'; cbn [andb]; [|apply IH; assumption].
    rewrite (prefix_between prefix k k') in E; [discriminate|exact Hpk|apply lt_le; assumption|exact E'].
Qed.

Lemma split_prefix_plain prefix c rest : plain prefix -> is_glob_char c = true ->
  split_prefix (prefix ++ c :: rest) = (prefix, c :: rest).
Proof.
  intros Hp Hc. induction prefix as [|x prefix IH]; cbn [app split_prefix].
  - rewrite Hc. reflexivity.
  - assert (Hx : is_glob_char x = false).
    { unfold is_glob_char, chr_star, chr_qm. assert (H : ~ In x re_meta) by (apply Hp; left; reflexivity).
      destruct (x =? 42) eqn:E1; [apply Z.eqb_eq in E1; subst; destruct H; cbn; tauto|].
      destruct (x =? 63) eqn:E2; [apply Z.eqb_eq in E2; subst; destruct H; cbn; tauto|]. reflexivity. }
    rewrite Hx, IH; [reflexivity|]. intros y Hy. apply Hp. right; exact Hy.
Qed.
Lemma split_prefix_none p : (forall c, In c p -> is_glob_char c = false) -> split_prefix p = (p, []).
Proof.
  induction p as [|x p IH]; intros H; cbn [split_prefix]; [reflexivity|].
  rewrite (H x) by (left; reflexivity). rewrite IH by (intros c Hc; apply H; right; exact Hc). reflexivity.
Qed.

Lemma glob_match_prefix prefix rest w : plain prefix -> glob_match (prefix ++ rest) w -> startswith w prefix = true.
Proof.
  revert w; induction prefix as [|x prefix IH]; intros w Hp H; [reflexivity|].
  cbn [app glob_match] in H. destruct (plain_not_glob x) as [E1 E2]; [apply Hp; left; reflexivity|]. rewrite E1, E2 in H.
  destruct H as (v & -> & H). cbn [startswith]. rewrite Z.eqb_refl. cbn [andb]. apply IH; [|exact H].
  intros y Hy. apply Hp. right; exact Hy.
Qed.

Lemma filter_keys_sorted (f : str * Z -> bool) (l : list (str * Z)) :
  StronglySorted lt (map fst l) -> StronglySorted lt (map fst (filter f l)).
Proof.
  induction l as [|p l IH]; intros Hs; [constructor|].
  cbn [map] in Hs. inversion Hs as [|? ? Hs' Hall]; subst. cbn [filter]. destruct (f p); [|apply IH, Hs'].
  cbn [map]. constructor; [apply IH, Hs'|]. rewrite Forall_forall in *. intros y Hy. apply Hall.
  apply in_map_iff in Hy as (q & <- & Hq). apply filter_In in Hq as [Hq _]. apply in_map, Hq.
Qed.
Lemma glob_exact lx prefix c rest : prefix <> [] -> plain prefix -> is_glob_char c = true -> no_newline lx ->
  exists ids, globToWordIds (prefix ++ c :: rest) lx = Ok ids /\
    forall i, In i ids <-> exists w, get (lwids lx) w = Some i /\ glob_match (prefix ++ c :: rest) w.
Proof.
  intros Hne Hp Hc Hn. unfold globToWordIds, globToWordIds_with. rewrite split_prefix_plain by assumption.
  destruct prefix as [|x prefix0]; [contradiction|]. set (prefix := x :: prefix0) in *.
  rewrite compile_glob by exact Hp. cbn [bind]. eexists; split; [reflexivity|]. intros i.
  rewrite glob_loop_filter.
  - rewrite in_map_iff.
    assert (Hnl : forall w i, get (lwids lx) w = Some i -> ~ In 10 w).
    { intros w i' Hw. apply Hn. unfold lex_words. apply keys_In. eauto. }
    assert (Hre : forall w, ~ In 10 w -> startswith w prefix = true ->
       (is_some (re_match (rseq (map prefix_char prefix ++ map glob_char (c :: rest) ++ [REnd])) w) = true <->
        glob_match (prefix ++ c :: rest) w)).
    { intros w Hw Hs. apply startswith_spec in Hs as [t ->]. rewrite glob_match_plain by exact Hp.
      rewrite <- glob_regex_ok by (intros H; apply Hw, in_or_app; auto).
      rewrite <- (prefix_regex _ prefix) by (intros H; apply Hw, in_or_app; auto). unfold re_match.
      match goal with |- is_some (hd_error ?l) = true <-> ?l2 <> [] => change l2 with l; destruct l end; cbn; split; congruence. }
    split.
    + intros ([w j] & E & Hin). cbn in E; subst j. apply filter_In in Hin as [Hin Hb]. apply filter_In in Hin as [Hin _].
      apply get_In in Hin. cbn [fst] in Hb. apply andb_true_iff in Hb as [Hs Hb]. exists w. split; [exact Hin|].
      apply Hre; [eapply Hnl; exact Hin|exact Hs|exact Hb].
    + intros (w & Hw & Hm). exists (w, i). split; [reflexivity|]. apply filter_In. cbn [fst]. split.
      * apply filter_In. split; [apply get_In, Hw|]. cbn [fst].
        apply glob_match_prefix in Hm; [|exact Hp]. apply startswith_spec in Hm as [t ->]. apply prefix_le.
      * apply andb_true_iff. split; [eapply glob_match_prefix; eassumption|]. apply Hre; [eapply Hnl; exact Hw|eapply glob_match_prefix; eassumption|exact Hm].
  - apply filter_keys_sorted. exact (keys_sorted (lwids lx)).
  - apply Forall_forall. intros k Hk. apply in_map_iff in Hk as (q & <- & Hq). apply filter_In in Hq as [_ Hq].
    apply leb_le, Hq.
Qed.
Lemma glob_no_wildcard lx p : bij lx -> (forall c, In c p -> is_glob_char c = false) ->
  globToWordIds p lx = Ok (match get (lwids lx) p with Some i => [i] | None => [] end).
Proof.
  intros (H1 & H2 & _) Hp. unfold globToWordIds, globToWordIds_with. rewrite split_prefix_none by exact Hp. unfold get_wid.
  destruct (get (lwids lx) p) as [i|] eqn:E; [|reflexivity]. apply H1 in E. apply H2 in E.
  replace (i =? 0) with false by lia. reflexivity.
Qed.
Lemma glob_leading lx c p : is_glob_char c = true -> globToWordIds (c :: p) lx = Raise QueryError.
Proof. intros H. unfold globToWordIds, globToWordIds_with. cbn [split_prefix]. rewrite H. reflexivity. Qed.
Lemma glob_loop_In prog prefix items i : In i (glob_loop prog prefix items) ->
  exists w, In (w, i) items /\ startswith w prefix = true.
Proof.
  induction items as [|[k j] items IH]; cbn [glob_loop]; [intros []|].
  destruct (startswith k prefix) eqn:Es; [|intros []].
  assert (Hr : In i (glob_loop prog prefix items) -> exists w, In (w, i) ((k, j) :: items) /\ startswith w prefix = true).
  { intros Hi. destruct (IH Hi) as (w & Hw & Hs). exists w. split; [right; exact Hw|exact Hs]. }
  destruct (re_match prog k); [|exact Hr]. intros [<-|Hi]; [|exact (Hr Hi)].
  exists k. split; [left; reflexivity|exact Es].
Qed.
Lemma glob_sound_prefix compile lx p ids i : globToWordIds_with compile p lx = Ok ids -> bij lx -> In i ids ->
  exists w, get (lwids lx) w = Some i /\ startswith w (fst (split_prefix p)) = true.
Proof.
  intros H Hb Hi. unfold globToWordIds_with in H. destruct (split_prefix p) as [prefix rest] eqn:E. cbn [fst].
  destruct rest as [|c rest].
  - injection H as <-. unfold get_wid in Hi. destruct (get (lwids lx) prefix) as [j|] eqn:Ej; [|cbn in Hi; destruct Hi].
    destruct (j =? 0); [cbn in Hi; destruct Hi|]. destruct Hi as [->|[]]. exists prefix. split; [exact Ej|].
    apply startswith_spec. exists []. rewrite app_nil_r. reflexivity.
  - destruct prefix as [|x prefix]; [discriminate|]. apply bind_ok in H as (prog & _ & H).
    injection H as <-. apply glob_loop_In in Hi as (w & Hw & Hs). apply filter_In in Hw as [Hw _].
    exists w. split; [apply get_In, Hw|exact Hs].
Qed.

(** ** What the property file uses *)
Section Props.
  Variable pipeline : list elem.

  Lemma lexicon_words (h : list lop) w : counter_ok h ->
    In w (lex_words (lex_run pipeline h)) <-> In w (words_of pipeline h).
  Proof.
    intros Hc. unfold lex_run.
    assert (H : forall lx, bij lx -> (In w (lex_words (fold_left (lex_step pipeline) h lx)) <->
       In w (lex_words lx) \/ In w (words_of pipeline h))).
    { induction h as [|o h IH]; intros lx Hb; cbn [fold_left words_of flat_map]; [cbn; tauto|].
      assert (Hc1 : forall n, o = LCounter n -> 0 <= n) by (intros n ->; apply Hc; left; reflexivity).
      assert (Hc2 : counter_ok h) by (intros n Hn; apply Hc; right; exact Hn).
      destruct (lex_step_ok pipeline lx o Hb Hc1) as [Hb1 _].
      rewrite (IH Hc2 _ Hb1), in_app_iff. fold (words_of pipeline h).
      assert (Hs : In w (lex_words (lex_step pipeline lx o)) <->
        In w (lex_words lx) \/ In w (match o with LText t => run_pipeline pipeline (text2list t) | LCounter _ => [] end)).
      { destruct o as [t|n]; cbn [lex_step]; [|cbn; tauto]. unfold sourceToWordIds.
        destruct (create_all_ok (run_pipeline pipeline (text2list t)) lx Hb) as (lx' & ids & -> & _ & Hg & _ & Hk & Ho).
        cbn [fst]. unfold lex_words. rewrite !keys_In.
        destruct (in_dec (list_eq_dec Z.eq_dec) w (run_pipeline pipeline (text2list t))) as [Hin|Hin].
        - split; [auto|]. intros _. apply Hk, Hin.
        - rewrite Ho by exact Hin. tauto. }
      rewrite Hs. tauto. }
    rewrite (H lex_new bij_new). unfold lex_words, lex_new. cbn [lwids]. rewrite keys_In, get_empty.
    split; [intros [[i Hi]|Hi]; [discriminate|exact Hi]|auto].
  Qed.
  Lemma fresh_ids (h : list lop) (t : ltext) : counter_ok h ->
    (exists ids, snd (sourceToWordIds pipeline t (lex_run pipeline h)) = Ok ids) /\
    forall w, In w (run_pipeline pipeline (text2list t)) -> get_wid (lex_run pipeline h) w = 0 ->
      0 < get_wid (lex_run pipeline (h ++ [LText t])) w /\
      ~ In (get_wid (lex_run pipeline (h ++ [LText t])) w) (lex_wids (lex_run pipeline h)).
  Proof.
    intros Hc. destruct (source_total pipeline h t Hc) as (ids & Hids & _). split; [eauto|]. intros w Hw H0.
    assert (Hc' : counter_ok (h ++ [LText t])).
    { intros n Hn. apply in_app_iff in Hn as [Hn|[Hn|[]]]; [apply Hc, Hn|discriminate]. }
    destruct (lexicon_bijection pipeline _ Hc') as (B1 & B2 & B3 & B4).
    assert (Hin : In w (lex_words (lex_run pipeline (h ++ [LText t])))).
    { apply lexicon_words; [exact Hc'|]. unfold words_of. rewrite flat_map_app, in_app_iff. right. cbn.
      rewrite app_nil_r. exact Hw. }
    apply B2 in Hin. set (i := get_wid (lex_run pipeline (h ++ [LText t])) w) in *.
    assert (Hg : get_word (lex_run pipeline (h ++ [LText t])) i = Ok w) by (apply B1; [exact Hin|reflexivity]).
    split; [eapply B4; exact Hg|]. intros Hold.
    destruct (lexicon_bijection pipeline _ Hc) as (A1 & _ & A3 & _). apply A3 in Hold as [w' Hw'].
    destruct (lexicon_permanent pipeline h [LText t] w' i Hc') as [_ P]. specialize (P Hw').
    rewrite Hg in P. injection P as <-. apply (A1 w i Hin) in Hw'. congruence.
  Qed.
  Lemma term_ids (h : list lop) (t : ltext) : counter_ok h ->
    Forall2 (fun w i => (In w (words_of pipeline h) /\ get_word (lex_run pipeline h) i = Ok w) \/
                        (~ In w (words_of pipeline h) /\ i = 0))
            (run_pipeline pipeline (text2list t)) (termToWordIds pipeline t (lex_run pipeline h)).
  Proof.
    intros Hc. unfold termToWordIds. destruct (lexicon_bijection pipeline _ Hc) as (B1 & B2 & _).
    induction (run_pipeline pipeline (text2list t)) as [|w ws IH]; cbn [map]; constructor; [|exact IH].
    rewrite <- (lexicon_words h w Hc), B2. destruct (Z.eq_dec (get_wid (lex_run pipeline h) w) 0) as [E|E].
    - right. split; [|exact E]. intros H; exact (H E).
    - left. split; [exact E|]. apply B1; [exact E|reflexivity].
  Qed.
End Props.

Lemma is_glob_char_iff c : is_glob_char c = true <-> c = chr_star \/ c = chr_qm.
Proof. unfold is_glob_char. rewrite orb_true_iff, !Z.eqb_eq. reflexivity. Qed.
Lemma is_glob_char_not c : c <> chr_star /\ c <> chr_qm -> is_glob_char c = false.
Proof. intros [H1 H2]. destruct (is_glob_char c) eqn:E; [|reflexivity]. apply is_glob_char_iff in E. tauto. Qed.
Lemma glob_exact' (lx : lex) (prefix : str) (c : char) (rest : str) :
  prefix <> [] -> plain prefix -> c = chr_star \/ c = chr_qm -> no_newline lx ->
  exists ids, globToWordIds (prefix ++ c :: rest) lx = Ok ids /\
    forall i, In i ids <-> exists w, In w (lex_words lx) /\ get_wid lx w = i /\ glob_match (prefix ++ c :: rest) w.
Proof.
  intros H1 H2 H3 H4. apply is_glob_char_iff in H3.
  destruct (glob_exact lx prefix c rest H1 H2 H3 H4) as (ids & E & H). exists ids. split; [exact E|].
  intros i. rewrite H. unfold lex_words, get_wid. split.
  - intros (w & Hw & Hm). exists w. rewrite keys_In, Hw. eauto.
  - intros (w & Hw & Hi & Hm). apply keys_In in Hw as [j Hj]. rewrite Hj in Hi. subst j. eauto.
Qed.
Lemma glob_loop_sub prog prefix (items : list (str * Z)) :
  NoDup (map snd items) -> NoDup (glob_loop prog prefix items).
Proof.
  induction items as [|[k j] items IH]; cbn [glob_loop map snd]; intros H; [constructor|].
  inversion H as [|? ? Hn H']; subst. destruct (startswith k prefix); [|constructor].
  destruct (re_match prog k); [|apply IH, H']. constructor; [|apply IH, H'].
  intros Hin. apply Hn. apply glob_loop_In in Hin as (w & Hw & _). apply in_map_iff. exists (w, j). auto.
Qed.
Lemma nodup_snd (f : str * Z -> bool) (l : list (str * Z)) :
  NoDup (map fst l) -> (forall w w' i, In (w, i) l -> In (w', i) l -> w = w') -> NoDup (map snd (filter f l)).
Proof.
  induction l as [|[k j] l IH]; cbn [map filter fst]; intros Hn Hi; [constructor|].
  inversion Hn as [|? ? Hk Hn']; subst.
  assert (IH' : NoDup (map snd (filter f l))).
  { apply IH; [exact Hn'|]. intros w w' i H1 H2. apply (Hi w w' i); right; assumption. }
  destruct (f (k, j)); [|exact IH']. cbn [map snd]. constructor; [|exact IH'].
  intros Hin. apply in_map_iff in Hin as ([w i] & E & Hw). cbn in E; subst i. apply filter_In in Hw as [Hw _].
  assert (k = w) by (apply (Hi k w j); [left; reflexivity|right; exact Hw]). subst w. apply Hk. apply in_map_iff. exists (k, j). auto.
Qed.
Lemma glob_nodup_bij lx compile (p : str) ids :
  bij lx -> globToWordIds_with compile p lx = Ok ids -> NoDup ids.
Proof.
  intros (H1 & _).
  unfold globToWordIds_with. destruct (split_prefix p) as [prefix rest]. destruct rest as [|c rest].
  - intros [= <-]. destruct (get_wid lx prefix =? 0); repeat constructor. intros [].
  - destruct prefix as [|x prefix]; [discriminate|]. intros H. apply bind_ok in H as (prog & _ & H). injection H as <-.
    apply glob_loop_sub, nodup_snd; [apply keys_NoDup|]. intros w w' i Hw Hw'. apply get_In, H1 in Hw. apply get_In, H1 in Hw'.
    congruence.
Qed.
Lemma glob_nodup (pipeline : list elem) (h : list lop) compile (p : str) ids :
  counter_ok h -> globToWordIds_with compile p (lex_run pipeline h) = Ok ids -> NoDup ids.
Proof. intros Hc. apply glob_nodup_bij. exact (lex_run_bij pipeline h Hc). Qed.
Lemma glob_plain_word (pipeline : list elem) (h : list lop) (p : str) : counter_ok h ->
  (forall c, In c p -> c <> chr_star /\ c <> chr_qm) ->
  globToWordIds p (lex_run pipeline h) =
    Ok (if get_wid (lex_run pipeline h) p =? 0 then [] else [get_wid (lex_run pipeline h) p]).
Proof.
  intros _ Hp. unfold globToWordIds, globToWordIds_with. rewrite split_prefix_none; [reflexivity|].
  intros c Hc. apply is_glob_char_not, Hp, Hc.
Qed.
Lemma glob_leading_wildcard (lx : lex) (c : char) (p : str) :
  c = chr_star \/ c = chr_qm -> globToWordIds (c :: p) lx = Raise QueryError.
Proof. intros H. apply glob_leading, is_glob_char_iff, H. Qed.
Lemma split_prefix_app prefix c rest : (forall c, In c prefix -> is_glob_char c = false) -> is_glob_char c = true ->
  split_prefix (prefix ++ c :: rest) = (prefix, c :: rest).
Proof.
  intros Hp Hc. induction prefix as [|x prefix IH]; cbn [app split_prefix].
  - rewrite Hc. reflexivity.
  - rewrite (Hp x) by (left; reflexivity). rewrite IH; [reflexivity|]. intros y Hy. apply Hp. right; exact Hy.
Qed.
Lemma glob_literal_prefix (pipeline : list elem) (h : list lop) compile (prefix rest : str) ids i :
  counter_ok h -> (forall c, In c prefix -> c <> chr_star /\ c <> chr_qm) ->
  rest = [] \/ (exists c r, rest = c :: r /\ (c = chr_star \/ c = chr_qm)) ->
  globToWordIds_with compile (prefix ++ rest) (lex_run pipeline h) = Ok ids -> In i ids ->
  exists t, get_word (lex_run pipeline h) i = Ok (prefix ++ t).
Proof.
  intros Hc Hp Hr H Hi. pose proof (lex_run_bij pipeline h Hc) as Hb.
  assert (E : fst (split_prefix (prefix ++ rest)) = prefix).
  { assert (Hp' : forall c, In c prefix -> is_glob_char c = false) by (intros c Hcc; apply is_glob_char_not, Hp, Hcc).
    destruct Hr as [->|(c & r & -> & Hcc)].
    - rewrite app_nil_r, split_prefix_none by exact Hp'. reflexivity.
    - rewrite split_prefix_app; [reflexivity|exact Hp'|apply is_glob_char_iff, Hcc]. }
  destruct (glob_sound_prefix compile _ _ _ _ H Hb Hi) as (w & Hw & Hs). rewrite E in Hs.
  apply startswith_spec in Hs as [t ->]. exists t. unfold get_word. apply Hb in Hw. rewrite Hw. reflexivity.
Qed.
Local Notation pipe0 := [mkElem (fun l => l) None].
Lemma glob_too_many : exists (h : list lop) (p w : str) i,
  no_drift h /\ no_newline (lex_run pipe0 h) /\
  globToWordIds p (lex_run pipe0 h) = Ok [i] /\ get_word (lex_run pipe0 h) i = Ok w /\ ~ glob_match p w.
Proof.
  exists [LText (TxList [[97; 124; 98; 120; 121; 122]])], [97; 124; 98; 63], [97; 124; 98; 120; 121; 122], 1. splits.
  - intros n [H|[]]; discriminate.
  - intros w H. vm_compute in H. destruct H as [<-|[]]. cbn; intuition discriminate.
  - vm_compute; reflexivity.
  - vm_compute; reflexivity.
  - cbn. intros (v1 & [= <-] & v2 & [= <-] & v3 & [= <-] & x & v & [= <- <-] & H). discriminate.
Qed.
Lemma glob_too_few : exists (h : list lop) (p w : str),
  no_drift h /\ no_newline (lex_run pipe0 h) /\
  globToWordIds p (lex_run pipe0 h) = Ok [] /\ In w (lex_words (lex_run pipe0 h)) /\ glob_match p w.
Proof.
  exists [LText (TxList [[97; 36; 98; 99]])], [97; 36; 98; 42], [97; 36; 98; 99]. splits.
  - intros n [H|[]]; discriminate.
  - intros w H. vm_compute in H. destruct H as [<-|[]]. cbn; intuition discriminate.
  - vm_compute; reflexivity.
  - vm_compute; auto.
  - cbn. repeat (eexists; split; [reflexivity|]). exists [99], []. auto.
Qed.

Lemma is_glob_iff p : isGlob p = true <-> In 42 p \/ In 63 p.
Proof.
  unfold isGlob. rewrite existsb_exists. unfold is_glob_char. split.
  - intros (c & Hin & H). apply orb_true_iff in H as [H|H]; apply Z.eqb_eq in H; subst c; auto.
  - intros [H|H]; eexists; (split; [exact H|reflexivity]).
Qed.
Lemma query_like_document pipeline t :
  (forall el l, In el pipeline -> no_wildcards l ->
     no_wildcards (process el l) /\ forall g, processGlob el = Some g -> g l = process el l) ->
  no_wildcards (text_strings t) -> parseTerms pipeline t = text_words pipeline t.
Proof.
  unfold parseTerms, run_pipeline_glob, text_words. change (text2list t) with (text_strings t).
  generalize (text_strings t). induction pipeline as [|el pipeline IH]; intros l H Hl; [reflexivity|]. cbn [fold_left].
  destruct (H el l (or_introl eq_refl) Hl) as [H1 H2].
  assert (E : match processGlob el with Some f => f l | None => process el l end = process el l)
    by (destruct (processGlob el) as [g|]; [apply H2; reflexivity|reflexivity]).
  rewrite E. apply IH; [|exact H1]. intros el' l' Hin. apply H. right. exact Hin.
Qed.
