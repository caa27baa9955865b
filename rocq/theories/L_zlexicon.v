(** * Lemmas: concurrent transactions on a lexicon *)
From Verif Require Import L_lexicon L_textsys L_zodb S_ztext Ord.

Notation add_wd := (fun lx w => fst (getWordIdCreate w lx)).

Lemma create_all_fold ws : forall lx, bij lx -> fst (create_all ws lx) = fold_left add_wd ws lx.
Proof.
  induction ws as [|w ws IH]; intros lx Hb; [reflexivity|]. cbn [create_all fold_left].
  destruct (getWordIdCreate_ok w lx Hb) as (lx1 & i & E & Hb1 & _). rewrite E. cbn [fst].
  destruct (create_all_ok ws lx1 Hb1) as (lx2 & ids & E2 & _). pose proof (IH lx1 Hb1) as IH1. rewrite E2 in *. exact IH1.
Qed.
Lemma fold_add_bij ws : forall lx, bij lx -> bij (fold_left add_wd ws lx) /\ grows lx (fold_left add_wd ws lx).
Proof.
  induction ws as [|w ws IH]; intros lx Hb; cbn [fold_left]; [split; [exact Hb|apply grows_refl]|].
  destruct (getWordIdCreate_ok w lx Hb) as (lx1 & i & E & Hb1 & Hg & _). rewrite E. cbn [fst].
  destruct (IH lx1 Hb1) as [H1 H2]. split; [exact H1|]. eapply grows_trans; eassumption.
Qed.
Lemma lex_texts_fold pipeline ts : forall lx, bij lx ->
  lex_texts pipeline ts lx = fold_left add_wd (flat_map (text_words pipeline) ts) lx.
Proof.
  induction ts as [|t ts IH]; intros lx Hb; [reflexivity|]. cbn [lex_texts fold_left flat_map]. rewrite fold_left_app.
  unfold sourceToWordIds. change (run_pipeline pipeline (text2list t)) with (text_words pipeline t).
  rewrite (create_all_fold _ _ Hb). apply IH. apply fold_add_bij, Hb.
Qed.
Lemma lex_texts_steps pipeline ts lx :
  lex_texts pipeline ts lx = fold_left (lex_step pipeline) (map LText ts) lx.
Proof. revert lx; induction ts as [|t ts IH]; intros lx; [reflexivity|]. apply IH. Qed.

(** ** Lexicons with the ids 1, 2, ..., wordCount *)
Definition dense (lx : lex) : Prop :=
  bij lx /\ forall i, (exists w, get (lwords lx) i = Some w) <-> 1 <= i <= lcount lx.
Lemma dense_new : dense lex_new.
Proof. split; [apply bij_new|]. intros i. unfold lex_new. cbn [lwords lcount]. split; [intros [w H]; discriminate H|lia]. Qed.

Lemma add_known w lx i : get (lwids lx) w = Some i -> getWordIdCreate w lx = (lx, Ok i).
Proof. intros H. unfold getWordIdCreate. rewrite H. reflexivity. Qed.
Lemma add_unknown w lx : get (lwids lx) w = None -> get (lwords lx) (lcount lx + 1) = None ->
  fst (getWordIdCreate w lx) = mkLex (put w (lcount lx + 1) (lwids lx)) (put (lcount lx + 1) w (lwords lx)) (lcount lx + 1).
Proof.
  intros H1 H2. unfold getWordIdCreate. rewrite H1. unfold new_wid. rewrite next_free_here; [reflexivity|]. apply mem_false, H2.
Qed.

(** ** One transaction *)
Section Txn.
  Variables snap cur : lex.
  Variable c : Z.
  Hypothesis Ds : dense snap.
  Hypothesis Dc : dense cur.
  Hypothesis Gsc : grows snap cur.
  Hypothesis Hc : lcount snap <= c <= lcount cur.

  (** what the transaction sees *)
  Definition own_ok (own : lex) : Prop :=
    bij own /\ grows snap own /\ c <= lcount own /\
    forall i, (exists w, get (lwords own) i = Some w) <-> 1 <= i <= lcount snap \/ c < i <= lcount own.
  Lemma own_start : own_ok (mkLex (lwids snap) (lwords snap) c).
  Proof.
    destruct Ds as [(B1 & B2 & B3) D]. split; [|split; [|split]]; cbn [lwids lwords lcount].
    - unfold bij; cbn [lwids lwords lcount]. splits; auto; lia.
    - split; auto.
    - lia.
    - intros i. rewrite D. lia.
  Qed.
  Lemma own_free own : own_ok own -> get (lwords own) (lcount own + 1) = None.
  Proof.
    intros (B & _ & H1 & H2). destruct (get (lwords own) (lcount own + 1)) as [w|] eqn:E; [exfalso|reflexivity].
    assert (E' : exists w, get (lwords own) (lcount own + 1) = Some w) by eauto. apply H2 in E'. lia.
  Qed.
  Lemma own_step own w : own_ok own -> own_ok (fst (getWordIdCreate w own)).
  Proof.
    intros H. destruct (get (lwids own) w) as [i|] eqn:E; [rewrite (add_known _ _ _ E); exact H|].
    pose proof (own_free own H) as Hf. destruct (getWordIdCreate_ok w own (proj1 H)) as (own' & i & E' & B' & G' & _).
    pose proof (add_unknown w own E Hf) as Ea. rewrite E' in *. cbn [fst] in *. subst own'.
    destruct H as (B & G & H1 & H2). split; [exact B'|]. split; [eapply grows_trans; eassumption|]. cbn [lcount lwords]. split; [lia|].
    intros k. rewrite get_put. destruct (eqb k (lcount own + 1)) eqn:Ek.
    - apply eqb_eq in Ek as ->. split; [lia|eauto].
    - apply eqb_neq in Ek. rewrite H2. lia.
  Qed.
  Lemma own_run ws own : own_ok own -> own_ok (fold_left add_wd ws own).
  Proof. revert own; induction ws as [|w ws IH]; intros own H; cbn [fold_left]; [exact H|]. apply IH, own_step, H. Qed.

  (** the same calls made on the latest version *)
  Definition parallel (own ser : lex) : Prop :=
    (forall w, get (lwids ser) w = match get (lwids cur) w with Some i => Some i | None => get (lwids own) w end) /\
    (forall i, get (lwords ser) i = match get (lwords cur) i with Some w => Some w | None => get (lwords own) i end) /\
    lcount ser = lcount cur + (lcount own - c).
  Lemma parallel_start : parallel (mkLex (lwids snap) (lwords snap) c) cur.
  Proof.
    destruct Gsc as [G1 G2]. split; [|split]; cbn [lwids lwords lcount]; [| |lia].
    - intros w. destruct (get (lwids cur) w) as [i|] eqn:E; [reflexivity|].
      destruct (get (lwids snap) w) as [i|] eqn:E'; [|reflexivity]. rewrite (G1 _ _ E') in E. discriminate.
    - intros i. destruct (get (lwords cur) i) as [w|] eqn:E; [reflexivity|].
      destruct (get (lwords snap) i) as [w|] eqn:E'; [|reflexivity]. rewrite (G2 _ _ E') in E. discriminate.
  Qed.
  Lemma parallel_run ws : forall own ser, own_ok own -> parallel own ser ->
    (forall w, In w ws -> get (lwids snap) w = None -> get (lwids cur) w = None /\ c = lcount cur) ->
    parallel (fold_left add_wd ws own) (fold_left add_wd ws ser).
  Proof.
    induction ws as [|w ws IH]; intros own ser Ho Hp Hws; cbn [fold_left]; [exact Hp|].
    assert (Hws' : forall w0, In w0 ws -> get (lwids snap) w0 = None -> get (lwids cur) w0 = None /\ c = lcount cur).
    { intros w0 Hw0. apply Hws. right. exact Hw0. }
    apply IH; [apply own_step, Ho| |exact Hws']. pose proof Hp as (P1 & P2 & P3).
    destruct (get (lwids own) w) as [i|] eqn:E.
    - rewrite (add_known _ _ _ E). assert (E' : exists k, get (lwids ser) w = Some k).
      { rewrite P1. destruct (get (lwids cur) w); eauto. }
      destruct E' as [k E']. rewrite (add_known _ _ _ E'). exact Hp.
    - assert (Hn : get (lwids snap) w = None).
      { destruct (get (lwids snap) w) as [k|] eqn:E'; [|reflexivity]. destruct Ho as (_ & [G1 _] & _). rewrite (G1 _ _ E') in E. discriminate. }
      destruct (Hws w (or_introl eq_refl) Hn) as [Hcur Hcc].
      assert (Es : get (lwids ser) w = None) by (rewrite P1, Hcur; exact E).
      pose proof (own_free own Ho) as Fo.
      assert (Ec : lcount ser = lcount own) by lia.
      assert (Fc : get (lwords cur) (lcount own + 1) = None).
      { destruct (get (lwords cur) (lcount own + 1)) as [x|] eqn:Ex; [exfalso|reflexivity].
        assert (Hx : exists x, get (lwords cur) (lcount own + 1) = Some x) by eauto. apply (proj2 Dc) in Hx.
        destruct Ho as (_ & _ & Ho & _). lia. }
      assert (Fs : get (lwords ser) (lcount ser + 1) = None) by (rewrite P2, Ec, Fc; exact Fo).
      rewrite (add_unknown w own E Fo), (add_unknown w ser Es Fs), Ec. split; [|split]; cbn [lwids lwords lcount].
      + intros w'. rewrite !get_put, P1. destruct (eqb w' w) eqn:Ew; [|reflexivity]. apply eqb_eq in Ew as ->. rewrite Hcur. reflexivity.
      + intros k. rewrite !get_put, P2. destruct (eqb k (lcount own + 1)) eqn:Ek; [|reflexivity]. apply eqb_eq in Ek as ->. rewrite Fc. reflexivity.
      + lia.
  Qed.

  Variable ws : list str.
  Let own := fold_left add_wd ws (mkLex (lwids snap) (lwords snap) c).
  Lemma fold_has_words : forall lx l, bij lx -> forall w, In w l -> exists i, get (lwids (fold_left add_wd l lx)) w = Some i.
  Proof.
    clear. intros lx l. revert lx. induction l as [|x l IH]; intros lx Hb w Hw; [destruct Hw|]. cbn [fold_left].
    destruct (getWordIdCreate_ok x lx Hb) as (lx1 & i & E & Hb1 & _ & Hx & _). rewrite E. cbn [fst].
    destruct Hw as [<-|Hw]; [|apply IH; assumption]. destruct (fold_add_bij l lx1 Hb1) as [_ [G _]]. eauto.
  Qed.

  (** A commit has the effect of the same calls made on the latest version. *)
  Lemma lex3_serial st : lex3 c snap cur own = Some st ->
    st = fold_left add_wd ws cur /\ grows own st /\
    ((exists w, In w ws /\ get (lwids snap) w = None) -> c = lcount cur /\ forall w, In w ws -> get (lwids snap) w = None -> get (lwids cur) w = None).
  Proof.
    pose proof (own_run ws _ own_start) as Ho. fold own in Ho. unfold lex3.
    destruct (map3 _ (lwids snap) _ _) as [wids|] eqn:E1; [|discriminate].
    destruct (map3 _ (lwords snap) _ _) as [words|] eqn:E2; [|discriminate]. intros [= <-].
    assert (M1 : forall w, merged (get (lwids snap) w) (get (lwids cur) w) (get (lwids own) w) (get wids w)).
    { intros w. eapply key3_merged; [|exact (map3_spec _ _ _ _ _ (fun _ => eq_refl) E1 w)]. intros x y. apply Z.eqb_eq. }
    assert (M2 : forall i, merged (get (lwords snap) i) (get (lwords cur) i) (get (lwords own) i) (get words i)).
    { intros i. eapply key3_merged; [|exact (map3_spec _ _ _ _ _ (fun _ => eq_refl) E2 i)]. intros x y. apply eqb_eq. }
    assert (Hnew : forall w, In w ws -> get (lwids snap) w = None -> get (lwids cur) w = None /\ c = lcount cur).
    { intros w Hw Hn. destruct (fold_has_words _ ws (proj1 own_start) w Hw) as [k Hk]. fold own in Hk. split.
      - destruct (M1 w) as [[E _]|(_ & E & _)]; congruence.
      - pose proof (proj1 (proj1 Ho) w k) as B. apply B in Hk. destruct Ho as (Bo & Go & Ho1 & Ho2).
        assert (Hkk : exists w, get (lwords own) k = Some w) by eauto. apply Ho2 in Hkk.
        assert (Hk' : c < k <= lcount own).
        { destruct Hkk as [Hs|Hs]; [|exact Hs]. exfalso. apply (proj2 Ds) in Hs as [w' Hw']. pose proof (proj2 Go _ _ Hw') as Hw2.
          assert (w' = w) by congruence. subst w'. apply (proj1 (proj1 Ds)) in Hw'. congruence. }
        assert (Hc1 : exists w, get (lwords own) (c + 1) = Some w) by (apply Ho2; lia). destruct Hc1 as [x Hx].
        assert (Hs1 : get (lwords snap) (c + 1) = None).
        { destruct (get (lwords snap) (c + 1)) as [y|] eqn:Ey; [exfalso|reflexivity].
          assert (Hy : exists y, get (lwords snap) (c + 1) = Some y) by eauto. apply (proj2 Ds) in Hy. lia. }
        assert (Hc2 : get (lwords cur) (c + 1) = None).
        { destruct (M2 (c + 1)) as [[E _]|(_ & E & _)]; congruence. }
        destruct (Z.eq_dec c (lcount cur)) as [->|Hne]; [reflexivity|exfalso].
        assert (Hy : exists y, get (lwords cur) (c + 1) = Some y) by (apply (proj2 Dc); destruct Ds as [(_ & _ & D3) _]; lia).
        destruct Hy as [y Hy]. congruence. }
    destruct (parallel_run ws _ _ own_start parallel_start Hnew) as (P1 & P2 & P3). fold own in P1, P2, P3.
    destruct Ho as (_ & [Go1 Go2] & _). destruct Gsc as [Gc1 Gc2]. split; [|split].
    - destruct (fold_left add_wd ws cur) as [sw si sc]. cbn [lwids lwords lcount] in P1, P2, P3. f_equal; [| |symmetry; exact P3].
      + apply smap_ext. intros w. rewrite P1. destruct (M1 w) as [[E ->]|(N & E & ->)].
        * rewrite E. destruct (get (lwids snap) w) as [i|] eqn:Es; [|reflexivity]. exact (Go1 _ _ Es).
        * rewrite E. destruct (get (lwids cur) w) as [i|] eqn:Ec; [reflexivity|].
          destruct (get (lwids snap) w) as [i|] eqn:Es; [|congruence]. apply Gc1 in Es. congruence.
      + apply smap_ext. intros i. rewrite P2. destruct (M2 i) as [[E ->]|(N & E & ->)].
        * rewrite E. destruct (get (lwords snap) i) as [w|] eqn:Es; [|reflexivity]. exact (Go2 _ _ Es).
        * rewrite E. destruct (get (lwords cur) i) as [w|] eqn:Ec; [reflexivity|].
          destruct (get (lwords snap) i) as [w|] eqn:Es; [|congruence]. apply Gc2 in Es. congruence.
    - split; cbn [lwids lwords].
      + intros w i Hi. destruct (M1 w) as [[E ->]|(N & E & ->)]; [exact Hi|]. rewrite E in Hi. apply Gc1 in Hi. exact Hi.
      + intros i w Hi. destruct (M2 i) as [[E ->]|(N & E & ->)]; [exact Hi|]. rewrite E in Hi. apply Gc2 in Hi. exact Hi.
    - intros (w & Hw & Hn). split; [exact (proj2 (Hnew w Hw Hn))|]. intros w' Hw' Hn'. apply Hnew; assumption.
  Qed.

  Lemma add_dense lx w : dense lx -> dense (fst (getWordIdCreate w lx)) /\ lcount lx <= lcount (fst (getWordIdCreate w lx)).
  Proof.
    clear. intros D. destruct (get (lwids lx) w) as [i|] eqn:E; [rewrite (add_known _ _ _ E); split; [exact D|cbn; lia]|].
    assert (Hf : get (lwords lx) (lcount lx + 1) = None).
    { destruct (get (lwords lx) (lcount lx + 1)) as [x|] eqn:Ex; [exfalso|reflexivity].
      assert (Hx : exists x, get (lwords lx) (lcount lx + 1) = Some x) by eauto. apply (proj2 D) in Hx. lia. }
    pose proof (add_unknown w lx E Hf) as Ea. destruct (getWordIdCreate_ok w lx (proj1 D)) as (lx' & i & E' & B' & _).
    rewrite E' in *. cbn [fst] in *. subst lx'. cbn [lcount]. split; [|lia]. split; [exact B'|]. cbn [lwords lcount].
    intros k. rewrite get_put. destruct (eqb k (lcount lx + 1)) eqn:Ek.
    - apply eqb_eq in Ek as ->. destruct D as [(_ & _ & D3) _]. split; [lia|eauto].
    - apply eqb_neq in Ek. rewrite (proj2 D). lia.
  Qed.
  Lemma fold_dense l : forall lx, dense lx -> dense (fold_left add_wd l lx) /\ lcount lx <= lcount (fold_left add_wd l lx).
  Proof.
    clear. induction l as [|w l IH]; intros lx D; cbn [fold_left]; [split; [exact D|lia]|].
    destruct (add_dense lx w D) as [D1 L1]. destruct (IH _ D1) as [D2 L2]. split; [exact D2|lia].
  Qed.
End Txn.

(** ** Versions *)
Definition lex_rel (lx lx' : lex) : Prop := grows lx lx' /\ lcount lx <= lcount lx'.
(** the latest first *)
Fixpoint lex_chain (vs : list lex) : Prop :=
  match vs with [] => True | v :: vs' => dense v /\ Forall (fun old => lex_rel old v) vs' /\ lex_chain vs' end.
Lemma lex_rel_refl lx : lex_rel lx lx.
Proof. split; [apply grows_refl|lia]. Qed.
Lemma lex_rel_trans a b c : lex_rel a b -> lex_rel b c -> lex_rel a c.
Proof. intros [G1 L1] [G2 L2]. split; [eapply grows_trans; eassumption|lia]. Qed.
Lemma chain_rel vs : lex_chain vs -> forall i j new old, (i <= j)%nat -> nth_error vs i = Some new -> nth_error vs j = Some old ->
  dense new /\ dense old /\ lex_rel old new.
Proof.
  induction vs as [|v vs IH]; intros H i j new old Hij Hi Hj; [destruct i; discriminate|]. destruct H as (H1 & H2 & H3).
  destruct i as [|i], j as [|j]; cbn in Hi, Hj; [| |lia|].
  - assert (new = old) by congruence. injection Hi as <-. subst old. splits; auto. apply lex_rel_refl.
  - injection Hi as <-. pose proof (nth_error_In _ _ Hj) as Hin. rewrite Forall_forall in H2. splits; auto.
    clear -H3 Hj. revert j Hj H3. induction vs as [|x vs IH]; intros j Hj H; [destruct j; discriminate|].
    destruct H as (H1 & _ & H2). destruct j; [injection Hj as <-; exact H1|exact (IH j Hj H2)].
  - apply (IH H3 i j); auto; lia.
Qed.
Lemma chain_in vs st : lex_chain vs -> In st vs -> dense st /\ exists cur, hd_error vs = Some cur /\ lex_rel st cur.
Proof.
  intros H Hin. apply In_nth_error in Hin as [j Hj]. destruct vs as [|v vs]; [destruct j; discriminate|].
  destruct (chain_rel _ H 0 j v st (Nat.le_0_l _) eq_refl Hj) as (_ & D & R). split; [exact D|]. exists v. auto.
Qed.

Section Db.
  Variable pipeline : list elem.
  Local Notation words t := (text_words pipeline t).
  Local Notation run := (lex_db_run pipeline).

  Lemma commit_serial vs i j ts st : lex_chain vs -> lex_commit pipeline vs i j ts = Some st ->
    exists cur snap seen, hd_error vs = Some cur /\ nth_error vs i = Some snap /\ nth_error vs (Nat.min i j) = Some seen /\
      st = lex_texts pipeline ts cur /\ dense st /\ lex_rel cur st /\
      (new_words pipeline ts snap -> lcount seen = lcount cur /\
         forall t w, In t ts -> In w (words t) -> get_wid snap w = 0 -> get_wid cur w = 0).
  Proof.
    intros Hch. unfold lex_commit. destruct vs as [|cur vs]; [discriminate|].
    destruct (nth_error (cur :: vs) i) as [snap|] eqn:Ei; [|discriminate].
    destruct (nth_error (cur :: vs) (Nat.min i j)) as [seen|] eqn:Ej; [|discriminate]. intros E. exists cur, snap, seen.
    destruct (chain_rel _ Hch 0 i cur snap (Nat.le_0_l _) eq_refl Ei) as (Dc & Ds & [Gsc Lsc]).
    destruct (chain_rel _ Hch 0 _ cur seen (Nat.le_0_l _) eq_refl Ej) as (_ & _ & [_ Lec]).
    destruct (chain_rel _ Hch _ i seen snap (Nat.le_min_l _ _) Ej Ei) as (_ & _ & [_ Lse]).
    assert (Hc : lcount snap <= lcount seen <= lcount cur) by lia.
    rewrite lex_texts_fold in E by apply (own_start _ _ _ Ds Hc).
    destruct (lex3_serial snap cur (lcount seen) Ds Dc Gsc Hc _ st E) as (-> & _ & Hnew).
    destruct (fold_dense (flat_map (text_words pipeline) ts) cur Dc) as [D L].
    splits; auto.
    - symmetry. apply lex_texts_fold, Dc.
    - split; [|exact L]. apply fold_add_bij, Dc.
    - intros (t & w & Ht & Hw & H0).
      assert (Hz : forall lx x, dense lx -> (get_wid lx x = 0 <-> get (lwids lx) x = None)).
      { intros lx x [(B1 & B2 & _) _]. unfold get_wid. destruct (get (lwids lx) x) as [k|] eqn:Ek; [|tauto].
        apply B1 in Ek. apply B2 in Ek. split; [lia|discriminate]. }
      assert (Hin : forall t w, In t ts -> In w (words t) -> In w (flat_map (text_words pipeline) ts)).
      { intros t' w' H1 H2. apply in_flat_map. eauto. }
      destruct Hnew as [H1 H2]. { exists w. split; [eauto|]. apply Hz; assumption. }
      split; [exact H1|]. intros t' w' Ht' Hw' H0'. apply Hz; [exact Dc|]. apply H2; [eauto|]. apply Hz; assumption.
  Qed.
  Lemma chain_commit vs i j ts st : lex_chain vs -> lex_commit pipeline vs i j ts = Some st -> lex_chain (st :: vs).
  Proof.
    intros Hch E. destruct (commit_serial _ _ _ _ _ Hch E) as (cur & snap & seen & Hhd & _ & _ & _ & D & R & _).
    split; [exact D|]. split; [|exact Hch]. apply Forall_forall. intros old Hold.
    destruct (chain_in _ _ Hch Hold) as (_ & cur' & Hc & R'). assert (cur' = cur) by congruence. subst cur'. exact (lex_rel_trans _ _ _ R' R).
  Qed.
  Lemma run_snoc sch t : run (sch ++ [t]) = lex_db_step pipeline (run sch) t.
  Proof. unfold lex_db_run. rewrite fold_left_app. reflexivity. Qed.
  Lemma run_chain sch : lex_chain (run sch) /\ exists cur rest, run sch = cur :: rest.
  Proof.
    induction sch as [|t sch [IH (cur & rest & IH')]] using rev_ind.
    - split; [|cbn; eauto]. cbn. auto using dense_new.
    - rewrite run_snoc. unfold lex_db_step. destruct (lex_commit _ _ _ _ _) as [st|] eqn:E; [|eauto].
      split; [exact (chain_commit _ _ _ _ _ IH E)|eauto].
  Qed.

  Lemma sub_app {A} (l l' r r' : list A) : sub l l' -> sub r r' -> sub (l ++ r) (l' ++ r').
  Proof. intros H H'. induction H; cbn; [exact H'|constructor; assumption|constructor; assumption]. Qed.
  Lemma sub_refl {A} (l : list A) : sub l l.
  Proof. induction l; constructor; assumption. Qed.

  (** every version is what a single client would have *)
  Lemma lex_serializable sch st : In st (run sch) ->
    exists committed, sub committed sch /\ st = lex_run pipeline (map LText (texts_of committed)).
  Proof.
    revert st. induction sch as [|t sch IH] using rev_ind; intros st Hin.
    - destruct Hin as [<-|[]]. exists []. split; [constructor|reflexivity].
    - assert (Hold : forall st, In st (run sch) -> exists committed, sub committed (sch ++ [t]) /\ st = lex_run pipeline (map LText (texts_of committed))).
      { intros st' H'. destruct (IH st' H') as (com & H1 & H2). exists com. split; [|exact H2].
        rewrite <- (app_nil_r com). apply sub_app; [exact H1|]. do 2 constructor. }
      rewrite run_snoc in Hin. unfold lex_db_step in Hin. destruct (lex_commit _ _ _ _ _) as [new|] eqn:E; [|auto].
      destruct Hin as [<-|Hin]; [|auto]. destruct (run_chain sch) as [Hch (cur & rest & Hr)].
      destruct (commit_serial _ _ _ _ _ Hch E) as (cur' & _ & _ & Hhd & _ & _ & -> & _).
      rewrite Hr in Hhd. injection Hhd as <-. destruct (IH cur) as (com & H1 & ->). { rewrite Hr. left. reflexivity. }
      exists (com ++ [t]). split; [apply sub_app; [exact H1|apply sub_refl]|].
      unfold texts_of, lex_run. rewrite map_app, concat_app, map_app, fold_left_app. cbn [map concat]. rewrite app_nil_r. apply lex_texts_steps.
  Qed.
  Lemma lex_commit_effect sch i j ts st : lex_commit pipeline (run sch) i j ts = Some st ->
    exists cur, hd_error (run sch) = Some cur /\ st = lex_texts pipeline ts cur.
  Proof.
    intros E. destruct (commit_serial _ _ _ _ _ (proj1 (run_chain sch)) E) as (cur & _ & _ & H & _ & _ & H' & _). eauto.
  Qed.
  Lemma lex_permanent_versions sch k old new w i : (k <= i)%nat -> nth_error (run sch) k = Some new -> nth_error (run sch) i = Some old ->
    (get_wid old w <> 0 -> get_wid new w = get_wid old w) /\
    (forall n, get_word old n = Ok w -> get_word new n = Ok w).
  Proof.
    intros Hk H1 H2. destruct (chain_rel _ (proj1 (run_chain sch)) k i new old Hk H1 H2) as (_ & _ & [[G1 G2] _]).
    split.
    - unfold get_wid. destruct (get (lwids old) w) as [x|] eqn:E; [|congruence]. rewrite (G1 _ _ E). reflexivity.
    - intros n. unfold get_word. destruct (get (lwords old) n) as [x|] eqn:E; [|discriminate]. rewrite (G2 _ _ E). auto.
  Qed.
  Lemma lex_counter_only vs i j ts cur snap seen st : lex_chain vs -> lex_commit pipeline vs i j ts = Some st ->
    hd_error vs = Some cur -> nth_error vs i = Some snap -> nth_error vs (Nat.min i j) = Some seen ->
    new_words pipeline ts snap ->
    lex_wordCount seen = lex_wordCount cur /\
    forall t w, In t ts -> In w (words t) -> get_wid snap w = 0 -> get_wid cur w = 0.
  Proof.
    intros Hch E H1 H2 H3 Hn. destruct (commit_serial _ _ _ _ _ Hch E) as (cur' & snap' & seen' & A & B & C & _ & _ & _ & D).
    assert (cur' = cur) by congruence. assert (snap' = snap) by congruence. assert (seen' = seen) by congruence. subst. auto.
  Qed.
  Lemma lex_counter_needed sch i j ts cur snap seen st : lex_commit pipeline (run sch) i j ts = Some st ->
    hd_error (run sch) = Some cur -> nth_error (run sch) i = Some snap -> nth_error (run sch) (Nat.min i j) = Some seen ->
    new_words pipeline ts snap ->
    lex_wordCount seen = lex_wordCount cur /\
    forall t w, In t ts -> In w (words t) -> get_wid snap w = 0 -> get_wid cur w = 0.
  Proof. intros E H1 H2 H3. exact (lex_counter_only _ _ _ _ _ _ _ _ (proj1 (run_chain sch)) E H1 H2 H3). Qed.

  (** the converse: when it commits *)
  Lemma key3_none {X} (same : X -> X -> bool) (o a b : option X) : eq_test same -> key3 same o a b = None -> a <> o /\ b <> o.
  Proof.
    intros H. pose proof (opt_same_eq same H) as H'. unfold key3.
    destruct (opt_same same a o) eqn:E1; [discriminate|]. destruct (opt_same same b o) eqn:E2; [discriminate|]. intros _.
    split; intros E; apply H' in E; congruence.
  Qed.
  Lemma fold_old ws lx w : bij lx -> ~ In w ws -> get (lwids (fold_left add_wd ws lx)) w = get (lwids lx) w.
  Proof.
    intros Hb Hw. rewrite <- (create_all_fold _ _ Hb). destruct (create_all_ok ws lx Hb) as (lx' & ids & E & _ & _ & _ & _ & H).
    rewrite E. cbn [fst]. auto.
  Qed.
  Lemma lex_commits vs i j ts cur snap seen : lex_chain vs ->
    hd_error vs = Some cur -> nth_error vs i = Some snap -> nth_error vs (Nat.min i j) = Some seen ->
    (new_words pipeline ts snap -> lex_wordCount seen = lex_wordCount cur /\
       forall t w, In t ts -> In w (words t) -> get_wid snap w = 0 -> get_wid cur w = 0) ->
    exists st, lex_commit pipeline vs i j ts = Some st.
  Proof.
    intros Hch Hhd Hi Hj Hn. unfold lex_commit. destruct vs as [|c vs]; [discriminate|]. injection Hhd as ->. rewrite Hi, Hj.
    destruct (chain_rel _ Hch 0 i cur snap (Nat.le_0_l _) eq_refl Hi) as (Dc & Ds & [Gsc Lsc]).
    destruct (chain_rel _ Hch 0 _ cur seen (Nat.le_0_l _) eq_refl Hj) as (_ & _ & [_ Lec]).
    destruct (chain_rel _ Hch _ i seen snap (Nat.le_min_l _ _) Hj Hi) as (_ & _ & [_ Lse]).
    assert (Hc : lcount snap <= lcount seen <= lcount cur) by lia. pose proof (own_start snap cur (lcount seen) Ds Hc) as Hs.
    rewrite lex_texts_fold by apply Hs.
    pose proof (own_run snap cur (lcount seen) Hc (flat_map (text_words pipeline) ts) _ Hs) as Ho.
    change (mkLex (lwids snap) (lwords snap) (lcount seen)) with (lex_begin seen snap) in *.
    set (own := fold_left add_wd _ _) in *.
    assert (Hz : forall lx x, dense lx -> (get_wid lx x = 0 <-> get (lwids lx) x = None)).
    { intros lx x [(B1 & B2 & _) _]. unfold get_wid. destruct (get (lwids lx) x) as [k|] eqn:Ek; [|tauto].
      apply B1 in Ek. apply B2 in Ek. split; [lia|discriminate]. }
    assert (Hin : forall w, get (lwids own) w <> get (lwids snap) w ->
      get (lwids snap) w = None /\ get (lwids cur) w = None /\ lcount seen = lcount cur).
    { intros w Hw. destruct (get (lwids snap) w) as [k|] eqn:Es; [exfalso; apply Hw; apply Ho; exact Es|].
      destruct (in_dec (list_eq_dec Z.eq_dec) w (flat_map (text_words pipeline) ts)) as [Hi'|Hi'].
      - apply in_flat_map in Hi' as (t & Ht & Hwt). apply (Hz snap w Ds) in Es.
        destruct Hn as [H1 H2]; [exists t, w; auto|]. split; [reflexivity|]. split; [apply Hz; [exact Dc|eauto]|exact H1].
      - exfalso. apply Hw. unfold own. rewrite fold_old; [exact Es|apply Hs|exact Hi']. }
    unfold lex3. edestruct (map3_total (fun _ => key3 Z.eqb) (lwids snap) (lwids cur) (lwids own)) as [m1 ->].
    { intros w E. apply key3_none in E as [H1 H2]; [|intros x y; apply Z.eqb_eq]. apply Hin in H2 as (E1 & E2 & _). congruence. }
    edestruct (map3_total (fun _ => key3 eqb) (lwords snap) (lwords cur) (lwords own)) as [m2 ->]; [|eauto].
    intros n E. apply key3_none in E as [H1 H2]; [|intros x y; rewrite eqb_eq; tauto].
    assert (Hsn : get (lwords snap) n = None).
    { destruct (get (lwords snap) n) as [w|] eqn:Es; [exfalso|reflexivity]. apply H2. apply Ho. exact Es. }
    rewrite Hsn in H1, H2. destruct (get (lwords own) n) as [w|] eqn:Eo; [|congruence]. destruct (get (lwords cur) n) as [w'|] eqn:Ec; [|congruence].
    pose proof Eo as Eo'. apply (proj1 (proj1 Ho)) in Eo'. destruct (Hin w) as (_ & _ & Hcc).
    { rewrite Eo'. intros E. symmetry in E. apply (proj1 (proj1 Ds)) in E. congruence. }
    assert (X1 : exists w, get (lwords own) n = Some w) by eauto. destruct Ho as (_ & _ & _ & Ho4). apply Ho4 in X1.
    assert (X2 : exists w, get (lwords cur) n = Some w) by eauto. apply (proj2 Dc) in X2.
    destruct X1 as [X1|X1]; [|lia]. apply (proj2 Ds) in X1 as [x X1]. congruence.
  Qed.
  Lemma lex_commits_run sch i j ts cur snap seen :
    hd_error (run sch) = Some cur -> nth_error (run sch) i = Some snap -> nth_error (run sch) (Nat.min i j) = Some seen ->
    (new_words pipeline ts snap -> lex_wordCount seen = lex_wordCount cur /\
       forall t w, In t ts -> In w (words t) -> get_wid snap w = 0 -> get_wid cur w = 0) ->
    exists st, lex_commit pipeline (run sch) i j ts = Some st.
  Proof. apply lex_commits, run_chain. Qed.
End Db.

Lemma lex_commit_iff pipeline sch i j ts cur snap seen :
  hd_error (lex_db_run pipeline sch) = Some cur -> nth_error (lex_db_run pipeline sch) i = Some snap ->
  nth_error (lex_db_run pipeline sch) (Nat.min i j) = Some seen ->
  (lex_commit pipeline (lex_db_run pipeline sch) i j ts <> None <->
   (new_words pipeline ts snap -> lex_wordCount seen = lex_wordCount cur /\
      forall t w, In t ts -> In w (text_words pipeline t) -> get_wid snap w = 0 -> get_wid cur w = 0)).
Proof.
  intros H1 H2 H3. split.
  - intros H. destruct (lex_commit _ _ _ _ _) as [st|] eqn:E; [|congruence]. exact (lex_counter_needed _ _ _ _ _ _ _ _ _ E H1 H2 H3).
  - intros H. destruct (lex_commits_run _ _ _ _ _ _ _ _ H1 H2 H3 H) as [st ->]. discriminate.
Qed.
Lemma lex_snapshot pipeline sch i ts cur snap :
  hd_error (lex_db_run pipeline sch) = Some cur -> nth_error (lex_db_run pipeline sch) i = Some snap ->
  new_words pipeline ts snap -> lex_wordCount cur <> lex_wordCount snap ->
  lex_commit pipeline (lex_db_run pipeline sch) i i ts = None.
Proof.
  intros H1 H2 Hn Hc. destruct (lex_commit _ _ _ _ _) as [st|] eqn:E; [|reflexivity]. exfalso.
  assert (H3 : nth_error (lex_db_run pipeline sch) (Nat.min i i) = Some snap) by (rewrite Nat.min_id; exact H2).
  destruct (lex_counter_needed _ _ _ _ _ _ _ _ _ E H1 H2 H3 Hn) as [H _]. congruence.
Qed.
Lemma lex_latest pipeline sch ts cur : hd_error (lex_db_run pipeline sch) = Some cur ->
  forall j, lex_commit pipeline (lex_db_run pipeline sch) 0 j ts = Some (lex_texts pipeline ts cur).
Proof.
  intros H j. assert (Hc : nth_error (lex_db_run pipeline sch) 0 = Some cur) by (destruct (lex_db_run pipeline sch); exact H).
  destruct (lex_commits_run pipeline sch 0 j ts cur cur cur H Hc Hc) as [st E]; [intros _; split; [reflexivity|auto]|].
  rewrite E. destruct (lex_commit_effect _ _ _ _ _ _ E) as (cur' & H' & ->). congruence.
Qed.
(** what the transaction saw is in the version it commits *)
Lemma commit_own pipeline vs i j ts st snap seen : lex_chain vs -> lex_commit pipeline vs i j ts = Some st ->
  nth_error vs i = Some snap -> nth_error vs (Nat.min i j) = Some seen ->
  bij (lex_texts pipeline ts (lex_begin seen snap)) /\ grows (lex_texts pipeline ts (lex_begin seen snap)) st /\
  grows snap st /\ bij (lex_begin seen snap).
Proof.
  intros Hch. unfold lex_commit. destruct vs as [|cur vs]; [discriminate|]. intros E Ei Ej. rewrite Ei, Ej in E.
  destruct (chain_rel _ Hch 0 i cur snap (Nat.le_0_l _) eq_refl Ei) as (Dc & Ds & [Gsc Lsc]).
  destruct (chain_rel _ Hch 0 _ cur seen (Nat.le_0_l _) eq_refl Ej) as (_ & _ & [_ Lec]).
  destruct (chain_rel _ Hch _ i seen snap (Nat.le_min_l _ _) Ej Ei) as (_ & _ & [_ Lse]).
  assert (Hc : lcount snap <= lcount seen <= lcount cur) by lia.
  pose proof (own_start _ _ _ Ds Hc) as Hs. change (mkLex (lwids snap) (lwords snap) (lcount seen)) with (lex_begin seen snap) in Hs.
  rewrite lex_texts_fold in E |- * by apply Hs.
  destruct (lex3_serial snap cur (lcount seen) Ds Dc Gsc Hc _ st E) as (_ & G & _).
  pose proof (own_run snap cur (lcount seen) Hc (flat_map (text_words pipeline) ts) _ Hs) as Ho.
  split; [apply Ho|]. split; [exact G|]. split; [|apply Hs]. eapply grows_trans; [apply Ho|exact G].
Qed.
