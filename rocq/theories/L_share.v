(** * Lemmas about programs with several lexicons, indexes and TextIndex objects *)
From Verif Require Import L_lexicon L_baseindex L_textsys L_okapi L_cosine L_costext L_textapi L_fail L_indeptext S_share S_text S_textapi S_score Arith SMap Ord.
Open Scope nat_scope.

(** ** Lists *)
Lemma set_nth_same {A} (x : A) : forall l n, n < length l -> nth_error (set_nth n x l) n = Some x.
Proof. induction l as [|y l IH]; intros [|n] H; cbn in *; try lia; [reflexivity|]. apply IH. lia. Qed.
Lemma set_nth_other {A} (x : A) : forall l n m, n <> m -> nth_error (set_nth n x l) m = nth_error l m.
Proof. induction l as [|y l IH]; intros [|n] [|m] H; cbn; try reflexivity; try lia. apply IH. lia. Qed.
Lemma set_nth_map {A B} (f : A -> B) (x : A) : forall l n y, nth_error l n = Some y -> f x = f y -> map f (set_nth n x l) = map f l.
Proof. induction l as [|z l IH]; intros [|n] y E H; cbn in *; try discriminate. - inversion E; subst. rewrite H. reflexivity.
  - rewrite (IH _ _ E H). reflexivity. Qed.
Lemma nth_map {A B} (f : A -> B) l n x : nth_error l n = Some x -> nth_error (map f l) n = Some (f x).
Proof. intros H. rewrite nth_error_map, H. reflexivity. Qed.
Lemma map_nth_inv {A B} (f : A -> B) l n y : nth_error (map f l) n = Some y -> exists x, nth_error l n = Some x /\ f x = y.
Proof. rewrite nth_error_map. destruct (nth_error l n) as [x|]; cbn; [|discriminate]. intros [= <-]. eauto. Qed.
Lemma nth_some {A} (l : list A) n : n < length l -> exists x, nth_error l n = Some x.
Proof. intros H. destruct (nth_error l n) as [x|] eqn:E; [eauto|]. apply nth_error_None in E. lia. Qed.
Lemma nth_lt {A} (l : list A) n x : nth_error l n = Some x -> n < length l.
Proof. intros H. apply nth_error_Some. congruence. Qed.
Lemma nth_snoc_old {A} (l : list A) x n : n < length l -> nth_error (l ++ [x]) n = nth_error l n.
Proof. intros H. apply nth_error_app1. exact H. Qed.
Lemma nth_snoc_new {A} (l : list A) x : nth_error (l ++ [x]) (length l) = Some x.
Proof. rewrite nth_error_app2 by lia. rewrite Nat.sub_diag. reflexivity. Qed.
Lemma nth_snoc_inv {A} (l : list A) x n y : nth_error (l ++ [x]) n = Some y ->
  (nth_error l n = Some y) \/ (n = length l /\ y = x).
Proof.
  intros H. pose proof (nth_lt _ _ _ H) as Hl. rewrite app_length in Hl. cbn in Hl.
  destruct (Nat.eq_dec n (length l)) as [->|Hn]. - rewrite nth_snoc_new in H. right. split; congruence.
  - left. rewrite nth_snoc_old in H by lia. exact H.
Qed.

Section Programs.
  Variable word_char : char -> bool.
  Variable lower : str -> str.
  Local Notation declare := (declare word_char lower).
  Local Notation made_by := (made_by word_char lower).
  Local Notation told := (told word_char lower).
  Local Notation seen := (seen word_char lower).
  Local Notation own := (own word_char lower).
  Local Notation through := (through word_char lower).
  Local Notation few_words := (few_words word_char lower).
  Local Notation sensible := (sensible word_char lower).

  Lemma made_snoc cs c : made_by (cs ++ [c]) = declare (made_by cs) c.
  Proof. unfold S_share.made_by. rewrite fold_left_app. reflexivity. Qed.
  Lemma through_snoc {A} (f : made -> shop -> list A) cs c : forall m,
    through f m (cs ++ [c]) = through f m cs ++ f (fold_left declare cs m) c.
  Proof. induction cs as [|c' cs IH]; intros m; cbn. - rewrite app_nil_r. reflexivity. - rewrite IH, app_assoc. reflexivity. Qed.
  Lemma told_snoc l cs c : told l (cs ++ [c]) = told l cs ++ tells (made_by cs) l c.
  Proof. apply through_snoc. Qed.
  Lemma seen_snoc l i cs c : seen l i (cs ++ [c]) = seen l i cs ++ event (made_by cs) l i c.
  Proof. apply through_snoc. Qed.
  Lemma own_snoc i cs c : own i (cs ++ [c]) = own i cs ++ mine (made_by cs) i c.
  Proof. apply through_snoc. Qed.
  Lemma sensible_snoc cs c : sensible (cs ++ [c]) -> sensible cs /\ refers (made_by cs) c.
  Proof.
    intros H. split. - intros b c' a E. apply (H b c' (a ++ [c])). rewrite E, <- app_assoc. reflexivity.
    - apply (H cs c []). reflexivity.
  Qed.
  Lemma declare_lexicons m c l p : nth_error (m_lexicons m) l = Some p -> nth_error (m_lexicons (declare m c)) l = Some p.
  Proof.
    intros H. pose proof (nth_lt _ _ _ H). destruct c as [p'|l'|l'|[l'|] [i'|]|l' t|i d t|i d|i|k d t|k d|k]; cbn; auto;
      rewrite nth_error_app1 by assumption; exact H.
  Qed.
  Lemma few_words_snoc cs c : few_words (cs ++ [c]) -> few_words cs.
  Proof.
    intros H l p Hp. specialize (H l p). rewrite made_snoc in H. specialize (H (declare_lexicons _ _ _ _ Hp)).
    eapply Z.le_lt_trans; [|exact H]. unfold Zlen. apply inj_le. apply NoDup_incl_length; [exact (proj1 (distinct_spec _))|].
    intros w Hw. apply (proj2 (distinct_spec _)). apply (proj1 (proj2 (distinct_spec _) w)) in Hw. rewrite told_snoc, flat_map_app. apply in_or_app. left. exact Hw.
  Qed.

  (** ** References and lexicons *)
  Definition sound_refs (m : made) : Prop :=
    (forall i b l, nth_error (m_indexes m) i = Some (b, l) -> l < length (m_lexicons m)) /\
    (forall k l i, nth_error (m_texts m) k = Some (l, i) -> l < length (m_lexicons m) /\ i < length (m_indexes m)).
  Lemma refs_ok cs : sensible cs -> sound_refs (made_by cs).
  Proof.
    induction cs as [|c cs IH] using rev_ind; intros H.
    - split; intros i; intros; destruct i; discriminate.
    - apply sensible_snoc in H. destruct H as [H Hr]. specialize (IH H). destruct IH as [I1 I2].
      rewrite made_snoc. set (m := made_by cs) in *. split.
      + intros i b l E.
        assert (G : nth_error (m_indexes m) i = Some (b, l) \/ l < length (m_lexicons (declare m c))).
        { destruct c as [p'|l'|l'|[l'|] [i'|]|l' t|j d t|j d|j|k d t|k d|k]; cbn in *; auto;
            apply nth_snoc_inv in E; destruct E as [E|[_ E]]; auto; right; inversion E; subst; auto.
          - destruct Hr as [Hr _]. exact (Hr _ eq_refl).
          - rewrite app_length. cbn. lia. }
        destruct G as [G|G]; [|exact G]. destruct (nth_some (m_lexicons m) l (I1 _ _ _ G)) as [p Ep].
        exact (nth_lt _ _ _ (declare_lexicons m c l p Ep)).
      + intros k l i E.
        destruct c as [p'|l'|l'|[l'|] [i'|]|l' t|j d t|j d|j|k' d t|k' d|k']; cbn in *; try (apply I2 in E; rewrite ?app_length; cbn; lia).
        * apply nth_snoc_inv in E. destruct E as [E|[_ E]]; [apply I2 in E; lia|]. inversion E; subst. destruct Hr as [R1 R2].
          split; [exact (R1 _ eq_refl)|exact (R2 _ eq_refl)].
        * apply nth_snoc_inv in E. rewrite app_length. cbn. destruct E as [E|[_ E]]; [apply I2 in E; lia|]. inversion E; subst. destruct Hr as [R1 R2].
          split; [exact (R1 _ eq_refl)|lia].
        * apply nth_snoc_inv in E. rewrite app_length. cbn. destruct E as [E|[_ E]]; [apply I2 in E; lia|]. inversion E; subst. destruct Hr as [R1 R2].
          specialize (R2 _ eq_refl). split; [|exact R2]. destruct (nth_some _ _ R2) as [[b l] El].
          rewrite (nth_error_nth _ _ _ El). cbn. apply I1 in El. lia.
        * apply nth_snoc_inv in E. rewrite !app_length. cbn. destruct E as [E|[_ E]]; [apply I2 in E; lia|]. inversion E; subst. lia.
  Qed.
  Lemma target_ok cs c i o : sensible cs -> refers (made_by cs) c -> target (made_by cs) c = Some (i, o) ->
    i < length (m_indexes (made_by cs)).
  Proof.
    intros H Hr E. pose proof (refs_ok cs H) as [_ I2].
    destruct c as [p'|l'|l'|[l'|] [i'|]|l' t|j d t|j d|j|k d t|k d|k]; cbn in *; try discriminate; try (inversion E; subst; exact Hr);
      destruct (nth_error _ k) as [[l j]|] eqn:Ek; try discriminate; inversion E; subst; exact (proj2 (I2 _ _ _ Ek)).
  Qed.
  (** nothing is told to lexicons not made yet *)
  Lemma tells_ok cs c l t : sensible cs -> refers (made_by cs) c -> In t (tells (made_by cs) l c) -> l < length (m_lexicons (made_by cs)).
  Proof.
    intros H Hr Ht. pose proof (refs_ok cs H) as [I1 _]. unfold tells in Ht.
    assert (G : forall i o, target (made_by cs) c = Some (i, o) -> lexicon_of (made_by cs) i = Some l -> l < length (m_lexicons (made_by cs))).
    { intros i o _ E. unfold lexicon_of in E. destruct (nth_error _ i) as [[b l']|] eqn:Ei; [|discriminate]. cbn in E. inversion E; subst. eauto. }
    destruct (target _ _) as [[i o]|] eqn:Et.
    - destruct o; try (destruct Ht; fail);
        destruct (lexicon_of _ i) as [l'|] eqn:El; [|destruct Ht]; destruct (Nat.eqb l' l) eqn:El'; [|destruct Ht];
        apply Nat.eqb_eq in El'; subst; exact (G _ _ eq_refl El).
    - destruct c; try (destruct Ht; fail). destruct (Nat.eqb _ l) eqn:El; [|destruct Ht]. apply Nat.eqb_eq in El. subst. exact Hr.
  Qed.
  Lemma declare_length m c : length (m_lexicons m) <= length (m_lexicons (declare m c)).
  Proof. destruct c as [p'|l'|l'|[l'|] [i'|]|l' t|j d t|j d|j|k d t|k d|k]; cbn; rewrite ?app_length; lia. Qed.
  Lemma declare_length_ix m c : length (m_indexes m) <= length (m_indexes (declare m c)).
  Proof. destruct c as [p'|l'|l'|[l'|] [i'|]|l' t|j d t|j d|j|k d t|k d|k]; cbn; rewrite ?app_length; lia. Qed.
  Lemma told_none cs l : sensible cs -> length (m_lexicons (made_by cs)) <= l -> told l cs = [].
  Proof.
    induction cs as [|c cs IH] using rev_ind; intros H Hl; [reflexivity|].
    apply sensible_snoc in H. destruct H as [H Hr]. rewrite made_snoc in Hl. pose proof (declare_length (made_by cs) c).
    rewrite told_snoc, IH by (auto; lia). cbn. destruct (tells (made_by cs) l c) as [|t ts] eqn:E; [reflexivity|].
    pose proof (tells_ok cs c l t H Hr) as G. rewrite E in G. specialize (G (or_introl eq_refl)). lia.
  Qed.
  (** an index not made yet only sees what others tell the lexicon *)
  Lemma seen_others cs l i : sensible cs -> length (m_indexes (made_by cs)) <= i ->
    seen l i cs = map (fun t => TOther (LText t)) (told l cs).
  Proof.
    induction cs as [|c cs IH] using rev_ind; intros H Hl; [reflexivity|].
    apply sensible_snoc in H. destruct H as [H Hr]. rewrite made_snoc in Hl. pose proof (declare_length_ix (made_by cs) c).
    rewrite seen_snoc, told_snoc, map_app, IH by (auto; lia). f_equal. unfold event.
    destruct (target (made_by cs) c) as [[j o]|] eqn:Et; [|reflexivity]. pose proof (target_ok cs c j o H Hr Et).
    destruct (Nat.eqb j i) eqn:E; [apply Nat.eqb_eq in E; lia|reflexivity].
  Qed.
  Lemma lex_hist_others ts : lex_hist (map (fun t => TOther (LText t)) ts) = map LText ts.
  Proof. induction ts as [|t ts IH]; [reflexivity|]. cbn. f_equal. exact IH. Qed.
  Lemma lex_hist_app' a b : lex_hist (a ++ b) = lex_hist a ++ lex_hist b.
  Proof. apply flat_map_app. Qed.
  Lemma target_tells m l i c o : target m c = Some (i, o) -> lexicon_of m i = Some l -> lex_hist [o] = map LText (tells m l c).
  Proof.
    intros Et El. unfold tells. rewrite Et, El, Nat.eqb_refl.
    destruct c as [p'|l'|l'|[l'|] [i'|]|l' t|j d t|j d|j|k d t|k d|k]; cbn in Et; try discriminate;
      try (destruct (nth_error _ k) as [[l0 j]|]; [|discriminate]); inversion Et; subst; reflexivity.
  Qed.
  Definition lexicon_is (m : made) (i l : nat) : Prop := i < length (m_indexes m) -> lexicon_of m i = Some l.
  Lemma event_tells m l i c : (forall j o, target m c = Some (j, o) -> j < length (m_indexes m)) -> lexicon_is m i l ->
    lex_hist (event m l i c) = map LText (tells m l c).
  Proof.
    intros Ht Hi. unfold event. destruct (target m c) as [[j o]|] eqn:Et; [|apply lex_hist_others].
    destruct (Nat.eqb j i) eqn:E; [|apply lex_hist_others]. apply Nat.eqb_eq in E. subst j.
    apply (target_tells m l i); [exact Et|]. apply Hi. exact (Ht _ _ eq_refl).
  Qed.
  Lemma declare_lexicon_of m c i : i < length (m_indexes m) -> lexicon_of (declare m c) i = lexicon_of m i.
  Proof.
    intros H. unfold lexicon_of. destruct c as [p'|l'|l'|[l'|] [i'|]|l' t|j d t|j d|j|k d t|k d|k]; cbn; rewrite ?nth_error_app1; auto.
  Qed.
  Lemma lex_seen cs l i : sensible cs -> lexicon_is (made_by cs) i l -> lex_hist (seen l i cs) = map LText (told l cs).
  Proof.
    induction cs as [|c cs IH] using rev_ind; intros H Hl; [reflexivity|].
    apply sensible_snoc in H. destruct H as [H Hr]. rewrite seen_snoc, told_snoc, map_app, lex_hist_app'.
    assert (Hl' : lexicon_is (made_by cs) i l).
    { intros Hi. rewrite made_snoc in Hl. pose proof (declare_length_ix (made_by cs) c). rewrite <- (declare_lexicon_of _ c) by exact Hi. apply Hl. lia. }
    rewrite IH by assumption. f_equal. apply event_tells; [|exact Hl']. intros j o Et. exact (target_ok cs c j o H Hr Et).
  Qed.

  (** ** Few words: small ids *)
  Lemma words_texts p ts : words_of p (map LText ts) = flat_map (text_words p) ts.
  Proof. unfold words_of. induction ts as [|t ts IH]; [reflexivity|]. cbn. rewrite IH. reflexivity. Qed.
  Lemma texts_no_drift ts : no_drift (map LText ts).
  Proof. intros n H. apply in_map_iff in H. destruct H as (t & E & _). discriminate. Qed.
  Lemma few_ok p h ts : lex_hist h = map LText ts -> (Zlen (distinct (flat_map (text_words p) ts)) < 2 ^ 28)%Z -> history_ok p h.
  Proof.
    intros E Hn. assert (Hc : counter_ok (lex_hist h)). { rewrite E. intros n H. destruct (texts_no_drift ts n H). }
    split; [exact Hc|]. intros i Hi. rewrite E in *.
    destruct (lexicon_bijection p _ Hc) as (B1 & _ & B3 & B4). apply B3 in Hi. destruct Hi as [w Hw]. pose proof (B4 _ _ Hw) as Hp.
    assert (Hi0 : i <> 0%Z) by lia. apply (B1 w i Hi0) in Hw.
    destruct (lexicon_in_order p _ (texts_no_drift ts)) as (_ & _ & O3). apply (O3 w i Hi0) in Hw. destruct Hw as [_ Hw].
    apply nth_lt in Hw. rewrite words_texts in Hw. unfold Zlen in Hn. lia.
  Qed.
  Lemma seen_history cs l i p : sensible cs -> few_words cs -> lexicon_is (made_by cs) i l ->
    nth_error (m_lexicons (made_by cs)) l = Some p -> history_ok p (seen l i cs).
  Proof. intros H Hf Hi Hp. apply (few_ok p _ (told l cs)); [exact (lex_seen cs l i H Hi)|exact (Hf l p Hp)]. Qed.

  (** ** Alone *)
  Lemma docs_others p ts : forall D, fold_left (docs_step p) (map (fun t => TOther (LText t)) ts) D = D.
  Proof. induction ts as [|t ts IH]; intros D; [reflexivity|]. cbn. apply IH. Qed.
  Lemma docs_own p l i cs : docs_of p (seen l i cs) = docs_of p (own i cs).
  Proof.
    induction cs as [|c cs IH] using rev_ind; [reflexivity|]. rewrite seen_snoc, own_snoc. unfold docs_of in *. rewrite !fold_left_app, IH.
    unfold event, mine. destruct (target _ _) as [[j o]|]; [|apply docs_others]. destruct (Nat.eqb j i); [reflexivity|apply docs_others].
  Qed.
  Lemma cleared_own p l i cs : words_cleared p (seen l i cs) = words_cleared p (own i cs).
  Proof.
    unfold words_cleared. f_equal. set (f := fun (Dn : smap Z (list str) * Z) o => _).
    assert (G : forall ts x, fold_left f (map (fun t => TOther (LText t)) ts) x = x).
    { induction ts as [|t ts IH]; intros [D n]; [reflexivity|]. cbn. apply IH. }
    induction cs as [|c cs IH] using rev_ind; [reflexivity|]. rewrite seen_snoc, own_snoc, !fold_left_app, IH.
    unfold event, mine. destruct (target _ _) as [[j o]|]; [|apply G]. destruct (Nat.eqb j i); [reflexivity|apply G].
  Qed.
  Lemma own_in l i cs o : In o (own i cs) -> In o (seen l i cs).
  Proof.
    induction cs as [|c cs IH] using rev_ind; [auto|]. rewrite seen_snoc, own_snoc. intros H. apply in_app_or in H. apply in_or_app.
    destruct H as [H|H]; [auto|]. right. unfold mine in H. unfold event. destruct (target _ _) as [[j o']|]; [|destruct H].
    destruct (Nat.eqb j i); [exact H|destruct H].
  Qed.
  Lemma seen_index l i cs d t : In (TIndex d t) (seen l i cs) <-> In (TIndex d t) (own i cs).
  Proof.
    split; [|apply own_in]. induction cs as [|c cs IH] using rev_ind; [auto|]. rewrite seen_snoc, own_snoc. intros H.
    apply in_app_or in H. apply in_or_app. destruct H as [H|H]; [auto|]. right. unfold mine. unfold event in H.
    assert (G : forall ts, ~ In (TIndex d t) (map (fun t => TOther (LText t)) ts)).
    { intros ts Hin. apply in_map_iff in Hin. destruct Hin as (t' & E & _). discriminate. }
    destruct (target _ _) as [[j o]|]; [|destruct (G _ H)]. destruct (Nat.eqb j i); [exact H|destruct (G _ H)].
  Qed.
  Lemma own_small p l i cs : texts_small p (own i cs) -> texts_small p (seen l i cs).
  Proof. intros H d t Hin. apply seen_index in Hin. exact (H d t Hin). Qed.
  (** the texts of an index alone *)
  Definition texts_of (h : list top) : list ltext := flat_map (fun o => match o with TIndex _ t => [t] | _ => [] end) h.
  Lemma own_lex i cs : lex_hist (own i cs) = map LText (texts_of (own i cs)).
  Proof.
    assert (G : forall h, (forall o, ~ In (TOther o) h) -> lex_hist h = map LText (texts_of h)).
    { induction h as [|o h IH]; intros H; [reflexivity|]. assert (IH' : lex_hist h = map LText (texts_of h)) by (apply IH; intros x Hx; apply (H x); right; exact Hx).
      destruct o as [d t|d| |lo]; cbn; [f_equal; exact IH'|exact IH'|exact IH'|]. destruct (H lo). left. reflexivity. }
    apply G. intros lo. induction cs as [|c cs IH] using rev_ind; [auto|]. rewrite own_snoc. intros H. apply in_app_or in H.
    destruct H as [H|H]; [auto|]. unfold mine in H.
    destruct c as [p'|l'|l'|[l'|] [i'|]|l' t|j d t|j d|j|k d t|k d|k]; cbn in H; try (destruct H; fail);
      try (destruct (nth_error _ k) as [[l0 j]|]; [|destruct H]); destruct (Nat.eqb j i); (destruct H as [H|[]] || destruct H); discriminate.
  Qed.
  Lemma own_history cs l i p : sensible cs -> few_words cs -> lexicon_of (made_by cs) i = Some l ->
    nth_error (m_lexicons (made_by cs)) l = Some p -> history_ok p (own i cs).
  Proof.
    intros H Hf Hi Hp. apply (few_ok p _ (texts_of (own i cs))); [apply own_lex|].
    eapply Z.le_lt_trans; [|exact (Hf l p Hp)]. unfold Zlen. apply inj_le. apply NoDup_incl_length; [exact (proj1 (distinct_spec _))|].
    intros w Hw. apply (proj2 (distinct_spec _)). apply (proj1 (proj2 (distinct_spec _) w)) in Hw. apply in_flat_map in Hw.
    destruct Hw as (t & Ht & Hw). apply in_flat_map. exists t. split; [|exact Hw].
    apply in_flat_map in Ht. destruct Ht as (o & Ho & Ht). destruct o as [d t'|d| |lo]; try (destruct Ht; fail). destruct Ht as [->|[]].
    apply (own_in l) in Ho. assert (G : In (LText t) (lex_hist (seen l i cs))).
    { unfold lex_hist. apply in_flat_map. exists (TIndex d t). split; [exact Ho|]. left. reflexivity. }
    rewrite lex_seen in G; [|exact H|intros _; exact Hi]. apply in_map_iff in G. destruct G as (t' & E & G). inversion E; subst. exact G.
  Qed.
  Lemma share_okapi_alone cs i l p : sensible cs -> few_words cs -> nth_error (m_indexes (made_by cs)) i = Some (true, l) ->
    nth_error (m_lexicons (made_by cs)) l = Some p -> texts_small p (own i cs) ->
    let s := okapi_state p (seen l i cs) in let alone := okapi_state p (own i cs) in
    same_texts s alone /\
    forall F (AF : Arith F) (K1 B : F),
      same_answers p (python_search_wids K1 B) (okapi_query_weight p K1)
        (fun q => exact_phrase (slx s) (docs_of p (own i cs)) q /\ exact_phrase (slx alone) (docs_of p (own i cs)) q) s alone.
  Proof.
    intros H Hf Hi Hp Hs. assert (Hh : history_ok p (seen l i cs)) by (apply seen_history; auto; intros _; unfold lexicon_of; rewrite Hi; reflexivity).
    pose proof (docs_own p l i cs) as Hd.
    assert (Ho : history_ok p (own i cs)) by (apply (own_history cs l); auto; unfold lexicon_of; rewrite Hi; reflexivity).
    rewrite <- Hd. apply okapi_indep; auto. - apply own_small. exact Hs. - apply cleared_own.
  Qed.
End Programs.
Arguments target_ok {word_char lower}.
Arguments refs_ok {word_char lower}.
Arguments told_none {word_char lower}.
Arguments seen_others {word_char lower}.
Arguments lex_seen {word_char lower}.
Arguments seen_history {word_char lower}.
Arguments own_history {word_char lower}.
Arguments few_words_snoc {word_char lower}.
Arguments docs_own {word_char lower}.
Arguments tells_ok {word_char lower}.
Arguments declare_lexicons {word_char lower}.
Arguments sensible_snoc {word_char lower}.
Arguments made_snoc {word_char lower}.
Arguments seen_snoc {word_char lower}.
Arguments told_snoc {word_char lower}.

Section Share.
  Context {F : Type} {AF : Arith F} {SF : SafeArith F} {EF : SoundEq F}.
  Variable word_char : char -> bool.
  Variable lower : str -> str.
  Local Notation declare := (declare word_char lower).
  Local Notation made_by := (made_by word_char lower).
  Local Notation told := (told word_char lower).
  Local Notation seen := (seen word_char lower).
  Local Notation own := (own word_char lower).
  Local Notation through := (through word_char lower).
  Local Notation few_words := (few_words word_char lower).
  Local Notation sensible := (sensible word_char lower).
  Local Notation run := (sh_run (F := F) word_char lower).
  Local Notation step := (sh_step (F := F) word_char lower).

  Lemma run_snoc cs c : run (cs ++ [c]) = let (w, r) := step c (fst (run cs)) in (w, snd (run cs) ++ [r]).
  Proof. unfold sh_run. rewrite fold_left_app. reflexivity. Qed.

  (** ** The state of one index *)
  Definition holds (p : list elem) (lx : lex) (c : content F) (h : list top) : Prop :=
    match c with
    | COkapi ix => okapi_run p h = (mkSys lx ix, Ok tt)
    | CCosine ix => cos_run p h = (mkSys lx ix, Ok tt)
    end.
  Definition content_step (p : list elem) (o : top) (lx : lex) (c : content F) : lex * content F * res unit :=
    match c with
    | COkapi ix => let (s, r) := op_step p (okapi_index_doc p) okapi_unindex_doc o (mkSys lx ix) in (slx s, COkapi (six s), r)
    | CCosine ix => let (s, r) := op_step p (cos_index_doc p) base_unindex_doc o (mkSys lx ix) in (slx s, CCosine (six s), r)
    end.
  Definition is_okapi (c : content F) : bool := match c with COkapi _ => true | CCosine _ => false end.
  Lemma sys_eta {V} (s : sys V) : mkSys (slx s) (six s) = s.
  Proof. destruct s. reflexivity. Qed.
  Lemma siter_one {S A} (f : A -> sx S unit) x s : siter f [x] s = f x s.
  Proof. cbn [siter]. unfold sbind, sret. destruct (f x s) as [s1 [[]|e]]; reflexivity. Qed.
  Lemma content_step_ok p lx c h o : history_ok p (h ++ [o]) -> holds p lx c h ->
    exists lx' c', content_step p o lx c = (lx', c', Ok tt) /\ holds p lx' c' (h ++ [o]) /\ is_okapi c' = is_okapi c /\
      lx' = lex_run p (lex_hist (h ++ [o])).
  Proof.
    intros Hh Hc. destruct c as [ix|ix]; cbn [holds content_step] in *.
    - destruct (okapi_run_ok p _ Hh) as (s & E & El & _). pose proof E as E'. unfold okapi_run, run_ops in E, Hc.
      rewrite siter_app, Hc, siter_one in E. rewrite E. exists (slx s), (COkapi (six s)). cbn [holds is_okapi]. rewrite sys_eta. auto.
    - destruct (cos_run_ok p _ Hh) as (s & E & El & _). pose proof E as E'. unfold cos_run, run_ops in E, Hc.
      rewrite siter_app, Hc, siter_one in E. rewrite E. exists (slx s), (CCosine (six s)). cbn [holds is_okapi]. rewrite sys_eta. auto.
  Qed.
  Lemma holds_other p lx c h t : holds p lx c h -> holds p (fst (sourceToWordIds p t lx)) c (h ++ [TOther (LText t)]).
  Proof.
    intros Hc. destruct c as [ix|ix]; cbn [holds] in *; unfold okapi_run, cos_run, run_ops in *; rewrite siter_app, Hc; reflexivity.
  Qed.
  Lemma holds_others p ts : forall lx c h, holds p lx c h ->
    holds p (fold_left (lex_step p) (map LText ts) lx) c (h ++ map (fun t => TOther (LText t)) ts).
  Proof.
    induction ts as [|t ts IH]; intros lx c h H; cbn [map fold_left]; [rewrite app_nil_r; exact H|].
    change (TOther (LText t) :: map (fun t => TOther (LText t)) ts) with ([TOther (LText t)] ++ map (fun t => TOther (LText t)) ts).
    rewrite app_assoc. apply IH. exact (holds_other p lx c h t H).
  Qed.
  Lemma holds_new p c ts : c = COkapi ix_new \/ c = CCosine ix_new ->
    holds p (lex_run p (map LText ts)) c (map (fun t => TOther (LText t)) ts).
  Proof. intros H. apply (holds_others p ts lex_new c []). destruct H as [-> | ->]; reflexivity. Qed.

  (** ** The invariant *)
  Definition sinv (cs : list shop) (w : sworld F) : Prop :=
    map lx_pipeline (s_lexicons w) = m_lexicons (made_by cs) /\
    map (fun x => (is_okapi (ix_content x), ix_lexicon x)) (s_indexes w) = m_indexes (made_by cs) /\
    map (fun x => (ti_lexicon x, ti_index x)) (s_texts w) = m_texts (made_by cs) /\
    (forall l x, nth_error (s_lexicons w) l = Some x -> lx_words x = lex_run (lx_pipeline x) (map LText (told l cs))) /\
    (forall i x lx, nth_error (s_indexes w) i = Some x -> nth_error (s_lexicons w) (ix_lexicon x) = Some lx ->
       holds (lx_pipeline lx) (lx_words lx) (ix_content x) (seen (ix_lexicon x) i cs)).

  Lemma lexicon_is_index w cs i x : sinv cs w -> nth_error (s_indexes w) i = Some x -> lexicon_is (made_by cs) i (ix_lexicon x).
  Proof.
    intros (_ & H & _) E _. unfold lexicon_of. rewrite <- H, (nth_map _ _ _ _ E). reflexivity.
  Qed.

  Lemma with_index_eq i o (w : sworld F) x lx : nth_error (s_indexes w) i = Some x -> nth_error (s_lexicons w) (ix_lexicon x) = Some lx ->
    with_index i o w = let '(lx', c', r) := content_step (lx_pipeline lx) o (lx_words lx) (ix_content x) in
      (mkSworld (set_nth (ix_lexicon x) (mkLexicon (lx_pipeline lx) lx') (s_lexicons w))
                (set_nth i (mkIndex (ix_lexicon x) c') (s_indexes w)) (s_texts w), r).
  Proof.
    intros E1 E2. unfold with_index, content_step. rewrite E1, E2. destruct (ix_content x) as [ix|ix]; destruct (op_step _ _ _ _ _) as [s r]; reflexivity.
  Qed.

  (** a call of a method of an index *)
  Lemma inv_call cs c w i o : sensible cs -> refers (made_by cs) c -> few_words (cs ++ [c]) -> sinv cs w ->
    target (made_by cs) c = Some (i, o) -> declare (made_by cs) c = made_by cs ->
    sinv (cs ++ [c]) (fst (with_index i o w)) /\ snd (with_index i o w) = Ok tt.
  Proof.
    intros H Hr Hf Hinv Et Hd. pose proof (target_ok cs c i o H Hr Et) as Hi. pose proof (refs_ok cs H) as [R1 _].
    destruct Hinv as (A & B & C & D & E).
    assert (Hx : exists x, nth_error (s_indexes w) i = Some x).
    { apply nth_some. rewrite <- (map_length (fun x => (is_okapi (ix_content x), ix_lexicon x))), B. exact Hi. }
    destruct Hx as [x Ex]. set (l := ix_lexicon x) in *.
    assert (Hl : l < length (s_lexicons w)).
    { rewrite <- (map_length lx_pipeline), A. apply (R1 i (is_okapi (ix_content x)) l). rewrite <- B. exact (nth_map _ _ _ _ Ex). }
    destruct (nth_some _ _ Hl) as [lx El].
    assert (Hli : lexicon_is (made_by cs) i l).
    { intros _. unfold lexicon_of. rewrite <- B, (nth_map _ _ _ _ Ex). reflexivity. }
    assert (Hlo : lexicon_of (made_by cs) i = Some l) by exact (Hli Hi).
    assert (Hse : seen l i (cs ++ [c]) = seen l i cs ++ [o]).
    { rewrite seen_snoc. unfold event. rewrite Et, Nat.eqb_refl. reflexivity. }
    assert (Hs' : sensible (cs ++ [c])).
    { intros b c' a Eq. destruct a as [|a0 a] using rev_ind.
      - apply app_inj_tail in Eq. destruct Eq as [-> ->]. exact Hr.
      - clear IHa. rewrite app_comm_cons, app_assoc in Eq. apply app_inj_tail in Eq. destruct Eq as [-> _]. exact (H b c' a eq_refl). }
    assert (Hok : history_ok (lx_pipeline lx) (seen l i cs ++ [o])).
    { rewrite <- Hse. apply seen_history; auto.
      - rewrite made_snoc, Hd. exact Hli.
      - rewrite made_snoc, Hd, <- A. exact (nth_map _ _ _ _ El). }
    destruct (content_step_ok _ _ _ _ _ Hok (E i x lx Ex El)) as (lx' & c' & Es & Hh & Hk & Hlx).
    rewrite (with_index_eq i o w x lx Ex El), Es. cbn [fst snd]. split; [|reflexivity]. fold l.
    assert (Hlx' : lx' = lex_run (lx_pipeline lx) (map LText (told l (cs ++ [c])))).
    { rewrite Hlx, <- Hse. rewrite (lex_seen (cs ++ [c]) l i Hs'); [reflexivity|]. rewrite made_snoc, Hd. exact Hli. }
    assert (Hne : forall l', l' <> l -> tells (made_by cs) l' c = []).
    { intros l' Hne. unfold tells. rewrite Et. destruct o; try reflexivity. rewrite Hlo. destruct (Nat.eqb l l') eqn:Eq; auto. apply Nat.eqb_eq in Eq. congruence. }
    unfold sinv. rewrite made_snoc, Hd. cbn [s_lexicons s_indexes s_texts]. repeat split.
    - rewrite (set_nth_map lx_pipeline _ _ _ lx El); [exact A|reflexivity].
    - rewrite (set_nth_map _ _ _ _ x Ex); [exact B|]. cbn. rewrite Hk. reflexivity.
    - exact C.
    - intros l' y Ey. destruct (Nat.eq_dec l l') as [<-|Hn].
      + rewrite set_nth_same in Ey by exact Hl. inversion Ey; subst y. cbn. exact Hlx'.
      + rewrite set_nth_other in Ey by exact Hn. rewrite told_snoc, (Hne l') by congruence. rewrite app_nil_r. exact (D _ _ Ey).
    - intros j y ly Ey Ely. destruct (Nat.eq_dec i j) as [<-|Hn].
      + rewrite set_nth_same in Ey by exact (nth_lt _ _ _ Ex). inversion Ey; subst y. cbn [ix_lexicon ix_content] in *.
        rewrite set_nth_same in Ely by exact Hl. inversion Ely; subst ly. cbn [lx_pipeline lx_words]. rewrite Hse. exact Hh.
      + rewrite set_nth_other in Ey by exact Hn.
        assert (Hev : event (made_by cs) (ix_lexicon y) j c = map (fun t => TOther (LText t)) (tells (made_by cs) (ix_lexicon y) c)).
        { unfold event. rewrite Et. destruct (Nat.eqb i j) eqn:Eq; [apply Nat.eqb_eq in Eq; congruence|reflexivity]. }
        rewrite seen_snoc, Hev. destruct (Nat.eq_dec l (ix_lexicon y)) as [Hly|Hly].
        * rewrite <- Hly in *. rewrite set_nth_same in Ely by exact Hl. inversion Ely; subst ly. cbn [lx_pipeline lx_words].
          rewrite Hlx', told_snoc, map_app. unfold lex_run. rewrite fold_left_app. apply holds_others.
          pose proof (D _ _ El) as Dl. unfold lex_run in Dl. rewrite <- Dl. specialize (E j y lx Ey). rewrite <- Hly in E. exact (E El).
        * rewrite set_nth_other in Ely by congruence. rewrite (Hne (ix_lexicon y)) by congruence. cbn [map]. rewrite app_nil_r. exact (E _ _ _ Ey Ely).
  Qed.

  (** calls that make objects *)
  Definition ginv (m : made) (T : nat -> list ltext) (S : nat -> nat -> list top) (w : sworld F) : Prop :=
    map lx_pipeline (s_lexicons w) = m_lexicons m /\
    map (fun x => (is_okapi (ix_content x), ix_lexicon x)) (s_indexes w) = m_indexes m /\
    map (fun x => (ti_lexicon x, ti_index x)) (s_texts w) = m_texts m /\
    (forall l x, nth_error (s_lexicons w) l = Some x -> lx_words x = lex_run (lx_pipeline x) (map LText (T l))) /\
    (forall i x lx, nth_error (s_indexes w) i = Some x -> nth_error (s_lexicons w) (ix_lexicon x) = Some lx ->
       holds (lx_pipeline lx) (lx_words lx) (ix_content x) (S (ix_lexicon x) i)).
  Lemma ginv_ext m T S T' S' w : (forall l, T l = T' l) -> (forall l i, S l i = S' l i) -> ginv m T S w -> ginv m T' S' w.
  Proof.
    intros HT HS (A & B & C & D & E). unfold ginv. repeat split; auto.
    - intros l x Hx. rewrite <- HT. auto.
    - intros i x lx Hx Hl. rewrite <- HS. auto.
  Qed.
  Lemma ginv_lengths m T S w : ginv m T S w -> length (s_lexicons w) = length (m_lexicons m) /\
    length (s_indexes w) = length (m_indexes m) /\ length (s_texts w) = length (m_texts m).
  Proof. intros (A & B & C & _). rewrite <- A, <- B, <- C, !map_length. auto. Qed.
  Lemma add_lexicon m T S w p : sound_refs m -> (forall l, length (m_lexicons m) <= l -> T l = []) -> ginv m T S w ->
    ginv (mkMade (m_lexicons m ++ [p]) (m_indexes m) (m_texts m)) T S (snd (new_lexicon p w)).
  Proof.
    intros [R1 _] HT H. destruct (ginv_lengths _ _ _ _ H) as (L1 & _). destruct H as (A & B & C & D & E).
    unfold ginv. cbn [new_lexicon snd s_lexicons s_indexes s_texts m_lexicons m_indexes m_texts]. repeat split; auto.
    - rewrite map_app, A. reflexivity.
    - intros l x Hx. apply nth_snoc_inv in Hx. destruct Hx as [Hx|[-> ->]]; [auto|]. cbn. rewrite HT by lia. reflexivity.
    - intros i x lx Hx Hl. assert (Hlt : ix_lexicon x < length (s_lexicons w)).
      { rewrite L1. apply (R1 i (is_okapi (ix_content x))). rewrite <- B. exact (nth_map _ _ _ _ Hx). }
      rewrite nth_snoc_old in Hl by exact Hlt. auto.
  Qed.
  Lemma add_index m T S w l c : c = COkapi ix_new \/ c = CCosine ix_new -> l < length (m_lexicons m) ->
    S l (length (m_indexes m)) = map (fun t => TOther (LText t)) (T l) -> ginv m T S w ->
    fst (new_index l c w) = length (m_indexes m) /\
    ginv (mkMade (m_lexicons m) (m_indexes m ++ [(is_okapi c, l)]) (m_texts m)) T S (snd (new_index l c w)).
  Proof.
    intros Hc Hl HS H. destruct (ginv_lengths _ _ _ _ H) as (L1 & L2 & _). destruct H as (A & B & C & D & E).
    split; [exact L2|]. rewrite <- L1 in Hl. destruct (nth_some _ _ Hl) as [lx El]. unfold new_index. rewrite El.
    unfold ginv. cbn [snd s_lexicons s_indexes s_texts m_lexicons m_indexes m_texts]. repeat split; auto.
    - rewrite map_app, B. reflexivity.
    - intros i x lx' Hx Hlx. apply nth_snoc_inv in Hx. destruct Hx as [Hx|[-> ->]]; [auto|]. cbn [ix_lexicon ix_content] in *.
      rewrite El in Hlx. inversion Hlx; subst lx'. rewrite (D _ _ El), L2, HS. apply holds_new. exact Hc.
  Qed.
  Lemma add_text m T S w l i : ginv m T S w ->
    ginv (mkMade (m_lexicons m) (m_indexes m) (m_texts m ++ [(l, i)])) T S (mkSworld (s_lexicons w) (s_indexes w) (s_texts w ++ [mkTindex l i])).
  Proof.
    intros (A & B & C & D & E). unfold ginv. cbn [s_lexicons s_indexes s_texts m_lexicons m_indexes m_texts]. repeat split; auto.
    rewrite map_app, C. reflexivity.
  Qed.
  Lemma lexicon_of_ok m T S w i : ginv m T S w -> i < length (m_indexes m) -> lexicon_of_index w i = snd (nth i (m_indexes m) (true, 0)).
  Proof.
    intros (A & B & _) Hi. unfold lexicon_of_index. destruct (nth_some _ _ Hi) as [y Ey]. rewrite (nth_error_nth _ _ _ Ey).
    rewrite <- B in Ey. apply map_nth_inv in Ey. destruct Ey as (x & -> & <-). reflexivity.
  Qed.

  Lemma inv_new cs c w : sensible cs -> refers (made_by cs) c -> sinv cs w ->
    (forall l, tells (made_by cs) l c = []) -> (forall i, target (made_by cs) c = Some i -> False) ->
    ginv (declare (made_by cs) c) (fun l => told l cs) (fun l i => seen l i cs) (fst (step c w)) -> sinv (cs ++ [c]) (fst (step c w)).
  Proof.
    intros H Hr Hi Ht Ho G. change (ginv (made_by (cs ++ [c])) (fun l => told l (cs ++ [c])) (fun l i => seen l i (cs ++ [c])) (fst (step c w))).
    rewrite made_snoc. revert G. apply ginv_ext.
    - intros l. rewrite told_snoc, Ht, app_nil_r. reflexivity.
    - intros l i. rewrite seen_snoc. unfold event. destruct (target (made_by cs) c) eqn:E; [destruct (Ho _ eq_refl)|].
      rewrite Ht. cbn [map]. rewrite app_nil_r. reflexivity.
  Qed.
  Lemma inv_lex cs l t w : sensible cs -> refers (made_by cs) (LexText l t) -> few_words (cs ++ [LexText l t]) -> sinv cs w ->
    sinv (cs ++ [LexText l t]) (fst (step (LexText l t) w)) /\ snd (step (LexText l t) w) = Ok tt.
  Proof.
    intros H Hr Hf (A & B & C & D & E). cbn [refers] in Hr.
    assert (Hl : l < length (s_lexicons w)) by (rewrite <- (map_length lx_pipeline), A; exact Hr).
    destruct (nth_some _ _ Hl) as [lx El]. cbn [sh_step]. rewrite El.
    assert (Hc : counter_ok (map LText (told l cs))). { intros n Hn. destruct (texts_no_drift _ n Hn). }
    destruct (source_total (lx_pipeline lx) _ t Hc) as (ids & Eids & _). rewrite <- (D _ _ El) in Eids.
    destruct (sourceToWordIds (lx_pipeline lx) t (lx_words lx)) as [words r] eqn:Es. cbn [snd] in Eids. subst r. cbn [fst snd rmap].
    split; [|reflexivity]. unfold sinv. rewrite made_snoc. cbn [S_share.declare s_lexicons s_indexes s_texts].
    assert (Ht : forall l', tells (made_by cs) l' (LexText l t) = if Nat.eqb l l' then [t] else []) by reflexivity.
    assert (Hev : forall l' i, event (made_by cs) l' i (LexText l t) = map (fun t => TOther (LText t)) (tells (made_by cs) l' (LexText l t))) by reflexivity.
    repeat split; auto.
    - rewrite (set_nth_map lx_pipeline _ _ _ lx El); [exact A|reflexivity].
    - intros l' y Ey. rewrite told_snoc, Ht. destruct (Nat.eqb l l') eqn:Eq.
      + apply Nat.eqb_eq in Eq. subst l'. rewrite set_nth_same in Ey by exact Hl. inversion Ey; subst y. cbn [lx_words lx_pipeline].
        rewrite map_app. unfold lex_run. rewrite fold_left_app. cbn [map fold_left lex_step]. pose proof (D _ _ El) as Dl. unfold lex_run in Dl.
        rewrite <- Dl, Es. reflexivity.
      + apply Nat.eqb_neq in Eq. rewrite set_nth_other in Ey by exact Eq. rewrite app_nil_r. exact (D _ _ Ey).
    - intros i x ly Ex Ely. rewrite seen_snoc, Hev, Ht. destruct (Nat.eqb l (ix_lexicon x)) eqn:Eq.
      + apply Nat.eqb_eq in Eq. rewrite <- Eq in *. rewrite set_nth_same in Ely by exact Hl. inversion Ely; subst ly. cbn [lx_words lx_pipeline map].
        specialize (E i x lx Ex). rewrite <- Eq in E. pose proof (holds_other _ _ _ _ t (E El)) as G. rewrite Es in G. exact G.
      + apply Nat.eqb_neq in Eq. rewrite set_nth_other in Ely by exact Eq. cbn [map]. rewrite app_nil_r. exact (E _ _ _ Ex Ely).
  Qed.

  Lemma inv_text_call cs k o w : sinv cs w -> k < length (m_texts (made_by cs)) ->
    exists l i, nth_error (m_texts (made_by cs)) k = Some (l, i) /\ with_text k o w = with_index i o w.
  Proof.
    intros (_ & _ & C & _) Hk. destruct (nth_some _ _ Hk) as [[l i] E]. exists l, i. split; [exact E|]. rewrite <- C in E.
    apply map_nth_inv in E. destruct E as (ti & E & Et). unfold with_text. rewrite E. inversion Et; subst. reflexivity.
  Qed.
  Lemma inv_step cs c w : sensible cs -> refers (made_by cs) c -> few_words (cs ++ [c]) -> sinv cs w ->
    sinv (cs ++ [c]) (fst (step c w)) /\ snd (step c w) = Ok tt.
  Proof.
    intros H Hr Hf Hi. pose proof (refs_ok cs H) as R. pose proof (fun l => told_none cs l H) as HT.
    pose proof (fun l i => seen_others cs l i H) as HS.
    assert (Hg : ginv (made_by cs) (fun l => told l cs) (fun l i => seen l i cs) w) by exact Hi.
    destruct c as [p|l|l|ol oi|l t|i d t|i d|i|k d t|k d|k].
    - split; [|reflexivity]. apply inv_new; try assumption; try reflexivity; [discriminate|]. apply add_lexicon; assumption.
    - split; [|reflexivity]. apply inv_new; try assumption; try reflexivity; [discriminate|].
      apply (add_index (made_by cs) (fun l => told l cs) (fun l i => seen l i cs) w l (COkapi ix_new)); auto.
    - split; [|reflexivity]. apply inv_new; try assumption; try reflexivity; [discriminate|].
      apply (add_index (made_by cs) (fun l => told l cs) (fun l i => seen l i cs) w l (CCosine ix_new)); auto.
    - split; [|reflexivity]. apply inv_new; try assumption; try reflexivity; [discriminate|]. destruct Hr as [R1 R2].
      cbn [sh_step fst]. unfold new_text. destruct ol as [l|], oi as [i|].
      + apply add_text. exact Hi.
      + destruct (add_index (made_by cs) (fun l => told l cs) (fun l i => seen l i cs) w l (COkapi ix_new)) as [E G]; auto.
        destruct (new_index l (COkapi ix_new) w) as [i w'] eqn:En. cbn [fst snd] in *. subst i. exact (add_text _ _ _ _ _ _ G).
      + pose proof (add_lexicon _ _ _ w (default_pipeline word_char lower) R HT Hg) as G.
        destruct (new_lexicon (default_pipeline word_char lower) w) as [l w'] eqn:En. cbn [snd] in G.
        rewrite (lexicon_of_ok _ _ _ _ _ G (R2 _ eq_refl)). exact (add_text _ _ _ _ _ _ G).
      + pose proof (add_lexicon _ _ _ w (default_pipeline word_char lower) R HT Hg) as G.
        pose proof (ginv_lengths _ _ _ _ Hg) as (L1 & _).
        assert (El : fst (new_lexicon (default_pipeline word_char lower) w) = length (m_lexicons (made_by cs))) by exact L1.
        destruct (new_lexicon (default_pipeline word_char lower) w) as [l w'] eqn:En. cbn [fst snd] in *. subst l.
        assert (Hlt : length (m_lexicons (made_by cs)) < length (m_lexicons (made_by cs) ++ [default_pipeline word_char lower])).
        { rewrite app_length. cbn. lia. }
        destruct (add_index (mkMade (m_lexicons (made_by cs) ++ [default_pipeline word_char lower]) (m_indexes (made_by cs)) (m_texts (made_by cs)))
                    (fun l => told l cs) (fun l i => seen l i cs) w' (length (m_lexicons (made_by cs))) (COkapi ix_new) (or_introl eq_refl) Hlt
                    (HS (length (m_lexicons (made_by cs))) _ (Nat.le_refl _)) G) as [E2 G2].
        destruct (new_index (length (m_lexicons (made_by cs))) (COkapi ix_new) w') as [i w2] eqn:En2. cbn [fst snd] in *. subst i. cbn [m_indexes].
        assert (El2 : lexicon_of_index w2 (length (m_indexes (made_by cs))) = length (m_lexicons (made_by cs))).
        { rewrite (lexicon_of_ok _ _ _ _ _ G2); cbn [m_indexes]. - rewrite app_nth2, Nat.sub_diag by lia. reflexivity.
          - rewrite app_length. cbn. lia. }
        rewrite El2. exact (add_text _ _ _ _ _ _ G2).
    - apply inv_lex; assumption.
    - apply (inv_call cs _ w i); try assumption; reflexivity.
    - apply (inv_call cs _ w i); try assumption; reflexivity.
    - apply (inv_call cs _ w i); try assumption; reflexivity.
    - destruct (inv_text_call cs k (TIndex d t) w Hi Hr) as (l & i & Ek & Ew). cbn [sh_step]. rewrite Ew.
      apply (inv_call cs _ w i); try assumption; try reflexivity. cbn. rewrite Ek. reflexivity.
    - destruct (inv_text_call cs k (TUnindex d) w Hi Hr) as (l & i & Ek & Ew). cbn [sh_step]. rewrite Ew.
      apply (inv_call cs _ w i); try assumption; try reflexivity. cbn. rewrite Ek. reflexivity.
    - destruct (inv_text_call cs k TClear w Hi Hr) as (l & i & Ek & Ew). cbn [sh_step]. rewrite Ew.
      apply (inv_call cs _ w i); try assumption; try reflexivity. cbn. rewrite Ek. reflexivity.
  Qed.
  Lemma inv_run cs : sensible cs -> few_words cs -> sinv cs (fst (run cs)) /\ snd (run cs) = map (fun _ => Ok tt) cs.
  Proof.
    induction cs as [|c cs IH] using rev_ind; intros H Hf.
    - split; [|reflexivity]. unfold sinv. cbn. repeat split; try reflexivity; intros i x; intros; destruct i; discriminate.
    - apply sensible_snoc in H. destruct H as [H Hr]. destruct (IH H (few_words_snoc _ _ Hf)) as [I1 I2].
      destruct (inv_step cs c _ H Hr Hf I1) as [S1 S2]. rewrite run_snoc. destruct (step c (fst (run cs))) as [w r]. cbn [fst snd] in *.
      split; [exact S1|]. rewrite I2, map_app, S2. reflexivity.
  Qed.

  (** ** The theorems *)
  Lemma share_calls cs r : sensible cs -> few_words cs -> In r (snd (run cs)) -> r = Ok tt.
  Proof. intros H Hf Hr. rewrite (proj2 (inv_run cs H Hf)) in Hr. apply in_map_iff in Hr. destruct Hr as (_ & <- & _). reflexivity. Qed.
  Lemma share_lexicon cs l p : sensible cs -> few_words cs -> nth_error (m_lexicons (made_by cs)) l = Some p ->
    nth_error (s_lexicons (fst (run cs))) l = Some (mkLexicon p (lex_run p (map LText (told l cs)))).
  Proof.
    intros H Hf Hp. destruct (inv_run cs H Hf) as [(A & _ & _ & D & _) _]. rewrite <- A in Hp. apply map_nth_inv in Hp.
    destruct Hp as ([p' lx] & E & <-). pose proof (D _ _ E) as G. cbn in *. rewrite E, G. reflexivity.
  Qed.
  Lemma share_index cs i b l p : sensible cs -> few_words cs -> nth_error (m_indexes (made_by cs)) i = Some (b, l) ->
    nth_error (m_lexicons (made_by cs)) l = Some p ->
    history_ok p (seen l i cs) /\
    exists lx c, nth_error (s_lexicons (fst (run cs))) l = Some (mkLexicon p lx) /\
      nth_error (s_indexes (fst (run cs))) i = Some (mkIndex l c) /\
      match c with
      | COkapi ix => b = true /\ mkSys lx ix = okapi_state p (seen l i cs)
      | CCosine ix => b = false /\ mkSys lx ix = cos_state p (seen l i cs)
      end.
  Proof.
    intros H Hf Hi Hp. destruct (inv_run cs H Hf) as [(A & B & C & D & E) _]. split.
    - apply seen_history; auto. intros _. unfold lexicon_of. rewrite Hi. reflexivity.
    - rewrite <- A in Hp. apply map_nth_inv in Hp. destruct Hp as ([p' lx] & Elx & Ep). cbn in Ep. subst p'.
      rewrite <- B in Hi. apply map_nth_inv in Hi. destruct Hi as ([l' c] & Eix & Eb). cbn in Eb. inversion Eb; subst.
      exists lx, c. split; [exact Elx|]. split; [exact Eix|]. specialize (E i _ _ Eix Elx). cbn in E.
      unfold okapi_state, cos_state. destruct c as [ix|ix]; cbn in *; rewrite E; auto.
  Qed.


  (** ** The theorems, index by index *)
  Lemma share_okapi cs i l p : sensible cs -> few_words cs -> nth_error (m_indexes (made_by cs)) i = Some (true, l) ->
    nth_error (m_lexicons (made_by cs)) l = Some p ->
    history_ok p (seen l i cs) /\ docs_of p (seen l i cs) = docs_of p (own i cs) /\
    exists lx ix, nth_error (s_lexicons (fst (run cs))) l = Some (mkLexicon p lx) /\
      nth_error (s_indexes (fst (run cs))) i = Some (mkIndex l (COkapi ix)) /\ mkSys lx ix = okapi_state p (seen l i cs).
  Proof.
    intros H Hf Hi Hp. destruct (share_index cs i true l p H Hf Hi Hp) as (Hh & lx & c & E1 & E2 & Ec).
    split; [exact Hh|]. split; [apply docs_own|]. destruct c as [ix|ix]; destruct Ec as [Eb Ec]; [|discriminate]. exists lx, ix. auto.
  Qed.
  Lemma share_cosine cs i l p : sensible cs -> few_words cs -> nth_error (m_indexes (made_by cs)) i = Some (false, l) ->
    nth_error (m_lexicons (made_by cs)) l = Some p ->
    history_ok p (seen l i cs) /\ docs_of p (seen l i cs) = docs_of p (own i cs) /\
    exists lx ix, nth_error (s_lexicons (fst (run cs))) l = Some (mkLexicon p lx) /\
      nth_error (s_indexes (fst (run cs))) i = Some (mkIndex l (CCosine ix)) /\ mkSys lx ix = cos_state p (seen l i cs).
  Proof.
    intros H Hf Hi Hp. destruct (share_index cs i false l p H Hf Hi Hp) as (Hh & lx & c & E1 & E2 & Ec).
    split; [exact Hh|]. split; [apply docs_own|]. destruct c as [ix|ix]; destruct Ec as [Eb Ec]; [discriminate|]. exists lx, ix. auto.
  Qed.
  Lemma share_cosine_alone cs i l p : sensible cs -> few_words cs -> nth_error (m_indexes (made_by cs)) i = Some (false, l) ->
    nth_error (m_lexicons (made_by cs)) l = Some p ->
    let s := cos_state (F := F) p (seen l i cs) in let alone := cos_state (F := F) p (own i cs) in
    same_texts s alone /\
    same_answers p cos_search_wids (cos_query_weight p)
      (fun q => exact_phrase (slx s) (docs_of p (own i cs)) q /\ exact_phrase (slx alone) (docs_of p (own i cs)) q) s alone.
  Proof.
    intros H Hf Hi Hp. destruct (share_cosine cs i l p H Hf Hi Hp) as (Hh & Hd & _).
    assert (Ho : history_ok p (own i cs)) by (apply (own_history cs l); auto; unfold lexicon_of; rewrite Hi; reflexivity).
    rewrite <- Hd. apply cos_indep; auto.
  Qed.
  Lemma share_text cs k ql i : sensible cs -> few_words cs -> nth_error (m_texts (made_by cs)) k = Some (ql, i) ->
    exists qp b l p, nth_error (m_lexicons (made_by cs)) ql = Some qp /\ nth_error (m_indexes (made_by cs)) i = Some (b, l) /\
      nth_error (m_lexicons (made_by cs)) l = Some p /\
      forall space upper (K1 B : F) query start count, sh_apply space upper K1 B (fst (run cs)) k query start count =
        Some (if b then apply space upper qp p (python_search_wids K1 B) (okapi_query_weight p K1) (okapi_state p (seen l i cs)) query start count
              else apply space upper qp p cos_search_wids (cos_query_weight p) (cos_state p (seen l i cs)) query start count).
  Proof.
    intros H Hf Hk. pose proof (refs_ok cs H) as [R1 R2]. destruct (R2 _ _ _ Hk) as [Hq Hi].
    destruct (nth_some _ _ Hq) as [qp Eq]. destruct (nth_some _ _ Hi) as [[b l] Ei]. destruct (nth_some _ _ (R1 _ _ _ Ei)) as [p Ep].
    exists qp, b, l, p. split; [exact Eq|]. split; [exact Ei|]. split; [exact Ep|]. intros space upper K1 B query start count.
    destruct (inv_run cs H Hf) as [(_ & _ & C & _) _]. rewrite <- C in Hk. apply map_nth_inv in Hk. destruct Hk as ([ql' i'] & Ek & Et).
    cbn in Et. inversion Et; subst. unfold sh_apply. rewrite Ek. cbn [ti_lexicon ti_index]. rewrite (share_lexicon cs ql qp H Hf Eq).
    destruct (share_index cs i b l p H Hf Ei Ep) as (_ & lx & c & E1 & E2 & Ec). rewrite E2. cbn [ix_lexicon ix_content]. rewrite E1.
    cbn [lx_pipeline lx_words]. destruct c as [ix|ix]; destruct Ec as [-> Ec]; rewrite Ec; reflexivity.
  Qed.
End Share.

(** ** Checks for examples *)
Definition check_refers (m : made) (c : shop) : bool :=
  let lexicon l := Nat.ltb l (length (m_lexicons m)) in
  let index i := Nat.ltb i (length (m_indexes m)) in
  let text k := Nat.ltb k (length (m_texts m)) in
  match c with
  | NewLexicon _ => true
  | NewOkapi l | NewCosine l | LexText l _ => lexicon l
  | NewText ol oi => match ol with Some l => lexicon l | None => true end && match oi with Some i => index i | None => true end
  | IxIndex i _ _ | IxUnindex i _ | IxClear i => index i
  | TiIndex k _ _ | TiUnindex k _ | TiClear k => text k
  end.
Lemma check_refers_ok m c : check_refers m c = true -> refers m c.
Proof.
  destruct c as [p|l|l|[l|] [i|]|l t|i d t|i d|i|k d t|k d|k]; cbn [check_refers refers]; rewrite ?andb_true_iff, ?Nat.ltb_lt; auto.
  all: intros H; split; intros x E; try discriminate; inversion E; subst; tauto.
Qed.
Fixpoint check_sensible word_char lower (m : made) (cs : list shop) : bool :=
  match cs with [] => true | c :: cs' => check_refers m c && check_sensible word_char lower (declare word_char lower m c) cs' end.
Lemma check_sensible_ok word_char lower cs : check_sensible word_char lower nothing cs = true -> sensible word_char lower cs.
Proof.
  intros H before c after E. unfold made_by. revert cs H E. generalize nothing.
  induction before as [|b before IH]; intros m cs H E; subst cs; cbn in H; apply andb_prop in H; destruct H as [H1 H2].
  - apply check_refers_ok. exact H1.
  - cbn. exact (IH _ _ H2 eq_refl).
Qed.
Definition check_few word_char lower (cs : list shop) : bool :=
  forallb (fun l => match nth_error (m_lexicons (made_by word_char lower cs)) l with
                    | Some p => (Zlen (distinct (flat_map (text_words p) (told word_char lower l cs))) <? 2 ^ 28)%Z
                    | None => true
                    end) (seq 0 (length (m_lexicons (made_by word_char lower cs)))).
Lemma check_few_ok word_char lower cs : check_few word_char lower cs = true -> few_words word_char lower cs.
Proof.
  unfold check_few. rewrite forallb_forall. intros H l p Hp. specialize (H l). rewrite Hp in H. apply Z.ltb_lt. apply H.
  apply in_seq. apply nth_lt in Hp. lia.
Qed.
