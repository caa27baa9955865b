(** * The heap model refines the value model; which results are snapshots *)
From Verif Require Import S_keyword L_keyword M_kwheap Sort SMap Ord.

Lemma load_alloc o hp l : load (fst (alloc o hp)) l = if eqb l (next hp) then o else load hp l.
Proof. unfold load, alloc; cbn [fst cells]. rewrite get_put. destruct (eqb l (next hp)); reflexivity. Qed.
Lemma load_store l0 o hp l : load (store l0 o hp) l = if eqb l l0 then o else load hp l.
Proof. unfold load, store; cbn [cells]. rewrite get_put. destruct (eqb l l0); reflexivity. Qed.
Lemma Zeqb_lt (a b : Z) : a < b -> eqb a b = false.
Proof. intros H. apply eqb_neq. lia. Qed.

Definition extends (hp hp' : mem_heap) : Prop :=
  next hp <= next hp' /\ forall l, l < next hp -> load hp' l = load hp l.
Lemma extends_refl hp : extends hp hp.
Proof. split; [lia|reflexivity]. Qed.
Lemma extends_trans a b c : extends a b -> extends b c -> extends a c.
Proof. intros [H1 H2] [H3 H4]. split; [lia|]. intros l Hl. rewrite H4, H2 by lia. reflexivity. Qed.
Lemma extends_alloc o hp : extends hp (fst (alloc o hp)).
Proof.
  split; [cbn; lia|]. intros l Hl. rewrite load_alloc, Zeqb_lt by lia. reflexivity.
Qed.

Section L.
  Context {W : Type} `{OW : Ord W}.
  Variable normalize : list W -> list W.
  Notation hf := (mem_heap * smap W Z)%type.
  Implicit Types (s : hf) (w : W) (l d : Z) (fwd : smap W Z) (hp : mem_heap) (st : hstate W).

  Definition hwf s : Prop :=
    (forall w l, get (snd s) w = Some l -> l < next (fst s)) /\
    (forall w w' l, get (snd s) w = Some l -> get (snd s) w' = Some l -> w = w').
  Definition absf s : smap W obj := mmap (fun _ l => load (fst s) l) (snd s).
  Lemma get_absf s w : get (absf s) w = match get (snd s) w with Some l => Some (load (fst s) l) | None => None end.
  Proof. unfold absf. rewrite get_mmap. reflexivity. Qed.

  (** Sets that are not posting sets stay as they are, and stay so. *)
  Definition loose s l : Prop := l < next (fst s) /\ forall w, get (snd s) w <> Some l.
  Definition frame s s' : Prop :=
    next (fst s) <= next (fst s') /\
    forall l, loose s l -> load (fst s') l = load (fst s) l /\ loose s' l.
  Lemma frame_refl s : frame s s.
  Proof. split; [lia|auto]. Qed.
  Lemma frame_trans a b c : frame a b -> frame b c -> frame a c.
  Proof.
    intros [H1 H2] [H3 H4]. split; [lia|]. intros l Hl. destruct (H2 l Hl) as [E Hl'].
    destruct (H4 l Hl') as [E' Hl'']. split; [congruence|exact Hl''].
  Qed.
  Definition good s s' : Prop := hwf s' /\ frame s s'.

  Lemma good_put s w o : hwf s -> good s (fst (alloc o (fst s)), put w (next (fst s)) (snd s)).
  Proof.
    intros [H1 H2]. destruct s as [hp fwd]; cbn [fst snd] in *. split; [split|split]; cbn [fst snd].
    - intros w' l. rewrite get_put. destruct (eqb w' w).
      + intros [= <-]. cbn. lia.
      + intros Hl. apply H1 in Hl. cbn. lia.
    - intros w1 w2 l. rewrite !get_put. destruct (eqb w1 w) eqn:E1, (eqb w2 w) eqn:E2.
      + apply eqb_eq in E1, E2. congruence.
      + intros [= <-] Hl. apply H1 in Hl. lia.
      + intros Hl [= <-]. apply H1 in Hl. lia.
      + apply H2.
    - cbn. lia.
    - intros l [Hl Hn]; cbn [fst snd] in *. split.
      + rewrite load_alloc, Zeqb_lt by lia. reflexivity.
      + split; [cbn; lia|]. cbn [snd]. intros w'. rewrite get_put. destruct (eqb w' w); [|apply Hn].
        intros [= <-]. lia.
  Qed.
  Lemma abs_put s w o : hwf s ->
    absf (fst (alloc o (fst s)), put w (next (fst s)) (snd s)) = put w o (absf s).
  Proof.
    intros [H1 H2]. apply smap_ext. intros w'. rewrite get_put, !get_absf; cbn [fst snd]. rewrite get_put.
    destruct (eqb w' w).
    - rewrite load_alloc, eqb_refl. reflexivity.
    - destruct (get (snd s) w') as [l|] eqn:E; [|reflexivity]. apply H1 in E.
      rewrite load_alloc, Zeqb_lt by lia. reflexivity.
  Qed.
  Lemma good_store s w l o : hwf s -> get (snd s) w = Some l -> good s (store l o (fst s), snd s).
  Proof.
    intros [H1 H2] Hw. destruct s as [hp fwd]; cbn [fst snd] in *. split; [split; cbn [fst snd]|split; cbn [fst snd]].
    - exact H1.
    - exact H2.
    - cbn. lia.
    - intros l' [Hl Hn]; cbn [fst snd] in *. split; [|split; [exact Hl|exact Hn]].
      rewrite load_store. destruct (eqb l' l) eqn:E; [|reflexivity]. apply eqb_eq in E; subst. destruct (Hn w Hw).
  Qed.
  Lemma abs_store s w l o : hwf s -> get (snd s) w = Some l ->
    absf (store l o (fst s), snd s) = put w o (absf s).
  Proof.
    intros [H1 H2] Hw. apply smap_ext. intros w'. rewrite get_put, !get_absf; cbn [fst snd].
    destruct (eqb w' w) eqn:E.
    - apply eqb_eq in E; subst. rewrite Hw, load_store, eqb_refl. reflexivity.
    - destruct (get (snd s) w') as [l'|] eqn:E'; [|reflexivity]. rewrite load_store.
      destruct (eqb l' l) eqn:El; [|reflexivity]. apply eqb_eq in El; subst. apply eqb_neq in E.
      destruct E. eapply H2; eassumption.
  Qed.
  Lemma good_del s w : hwf s -> good s (fst s, del w (snd s)).
  Proof.
    intros [H1 H2]. split; [split|split]; cbn [fst snd].
    - intros w' l. rewrite get_del. destruct (eqb w' w); [discriminate|apply H1].
    - intros w1 w2 l. rewrite !get_del. destruct (eqb w1 w), (eqb w2 w); try discriminate. apply H2.
    - lia.
    - intros l [Hl Hn]. split; [reflexivity|]. split; [exact Hl|]. cbn [fst snd]. intros w'. rewrite get_del.
      destruct (eqb w' w); [discriminate|apply Hn].
  Qed.
  Lemma abs_del s w : absf (fst s, del w (snd s)) = del w (absf s).
  Proof.
    apply smap_ext. intros w'. rewrite get_del, !get_absf; cbn [fst snd]. rewrite get_del.
    destruct (eqb w' w); reflexivity.
  Qed.
  Lemma good_trans a b c : good a b -> good b c -> good a c.
  Proof. intros [_ F1] [H2 F2]. split; [exact H2|eapply frame_trans; eassumption]. Qed.
  Lemma good_refl s : hwf s -> good s s.
  Proof. intros H. split; [exact H|apply frame_refl]. Qed.

  (** ** Updates *)
  Lemma h_insert_word_ok thr d s w : hwf s ->
    good s (h_insert_word thr d s w) /\ absf (h_insert_word thr d s w) = insert_word thr d (absf s) w.
  Proof.
    intros Hs. unfold h_insert_word, insert_word. rewrite get_absf. destruct s as [hp fwd]; cbn [fst snd] in *.
    set (s1 := match get fwd w with Some _ => (hp, fwd) | None => (fst (alloc (false, empty) hp), put w (next hp) fwd) end).
    set (l := match get fwd w with Some l => l | None => next hp end).
    assert (E1 : match get fwd w with
      | Some l => (hp, fwd, l)
      | None => let '(hp', l) := alloc (false, empty) hp in (hp', put w l fwd, l)
      end = (fst s1, snd s1, l)).
    { unfold s1, l. destruct (get fwd w); reflexivity. }
    rewrite E1. clear E1.
    assert (G1 : good (hp, fwd) s1).
    { unfold s1. destruct (get fwd w); [apply good_refl, Hs|]. apply (good_put (hp, fwd) w (false, empty) Hs). }
    assert (Hl : get (snd s1) w = Some l).
    { unfold s1, l. destruct (get fwd w) eqn:E; cbn [snd]; [exact E|]. rewrite get_put, eqb_refl. reflexivity. }
    assert (A1 : match match get fwd w with Some l => Some (load hp l) | None => None end with
                 | Some p => p | None => (false, empty) end = load (fst s1) l).
    { unfold s1, l. destruct (get fwd w); [reflexivity|]. cbn [fst]. rewrite load_alloc, eqb_refl. reflexivity. }
    assert (A2 : forall o, put w o (absf s1) = put w o (absf (hp, fwd))).
    { intros o. unfold s1. destruct (get fwd w); [reflexivity|].
      pose proof (abs_put (hp, fwd) w (false, empty) Hs) as E. cbn [fst snd] in E. rewrite E, put_put. reflexivity. }
    rewrite A1. destruct (load (fst s1) l) as [tr els]. clearbody s1 l. clear A1.
    pose proof (good_store s1 w l (tr, sadd d els) (proj1 G1) Hl) as G2.
    pose proof (abs_store s1 w l (tr, sadd d els) (proj1 G1) Hl) as A3.
    destruct (negb tr && (Zsize (sadd d els) >=? thr)).
    - set (s2 := (store l (tr, sadd d els) (fst s1), snd s1)) in *.
      pose proof (good_put s2 w (true, sadd d els) (proj1 G2)) as G3.
      pose proof (abs_put s2 w (true, sadd d els) (proj1 G2)) as A4.
      split.
      + eapply good_trans; [exact G1|]. eapply good_trans; [exact G2|]. exact G3.
      + etransitivity; [exact A4|]. rewrite A3, put_put. apply A2.
    - split.
      + eapply good_trans; [exact G1|exact G2].
      + rewrite A3. apply A2.
  Qed.
  Lemma h_insert_forward_ok thr d words s : hwf s ->
    good s (h_insert_forward thr d words s) /\
    absf (h_insert_forward thr d words s) = insert_forward thr d words (absf s).
  Proof.
    unfold h_insert_forward, insert_forward. generalize (selems words). intros ws. revert s.
    induction ws as [|w ws IH]; intros s Hs; cbn [fold_left].
    - split; [apply good_refl, Hs|reflexivity].
    - destruct (h_insert_word_ok thr d s w Hs) as [G A]. destruct (IH _ (proj1 G)) as [G' A'].
      split; [eapply good_trans; eassumption|]. rewrite A', A. reflexivity.
  Qed.
  Lemma h_remove_words_ok d ws s : hwf s ->
    good s (fst (h_remove_words d ws s)) /\
    (absf (fst (h_remove_words d ws s)), snd (h_remove_words d ws s)) = remove_words d ws (absf s).
  Proof.
    revert s; induction ws as [|w ws IH]; intros s Hs; cbn [h_remove_words remove_words].
    - split; [apply good_refl, Hs|reflexivity].
    - rewrite get_absf. destruct s as [hp fwd]; cbn [fst snd]. destruct (get fwd w) as [l|] eqn:E.
      2:{ split; [apply good_refl, Hs|reflexivity]. }
      destruct (load hp l) as [tr els]. destruct (mem d els).
      2:{ split; [apply good_refl, Hs|reflexivity]. }
      pose proof (good_store (hp, fwd) w l (tr, srem d els) Hs E) as G1.
      pose proof (abs_store (hp, fwd) w l (tr, srem d els) Hs E) as A1. cbn [fst snd] in G1, A1.
      destruct (is_empty (srem d els)).
      + pose proof (good_del _ w (proj1 G1)) as G2.
        pose proof (abs_del (store l (tr, srem d els) hp, fwd) w) as A2. cbn [fst snd] in G2, A2.
        destruct (IH _ (proj1 G2)) as [G3 A3]. split.
        * eapply good_trans; [exact G1|]. eapply good_trans; [exact G2|exact G3].
        * rewrite A3, A2, A1, del_put. reflexivity.
      + destruct (IH _ (proj1 G1)) as [G3 A3]. split.
        * eapply good_trans; [exact G1|exact G3].
        * rewrite A3, A1. reflexivity.
  Qed.

  Definition hs st : hf := (hheap st, hfwd st).
  Definition absk st : kstate W := mkK (absf (hs st)) (hrev st) (hnum st) (hthr st).
  Definition hgood st st' : Prop := good (hs st) (hs st').

  Lemma h_unindex_ok d st : hwf (hs st) ->
    hgood st (h_unindex d st) /\ absk (h_unindex d st) = k_unindex d (absk st).
  Proof.
    intros Hs. unfold h_unindex, k_unindex. cbn [krev absk kfwd knum threshold].
    destruct (get (hrev st) d) as [words|].
    2:{ split; [apply good_refl, Hs|reflexivity]. }
    destruct (h_remove_words_ok d (selems words) (hs st) Hs) as [G A].
    rewrite <- A. change (hheap st, hfwd st) with (hs st).
    destruct (h_remove_words d (selems words) (hs st)) as [[hp fwd] [u|e]]; cbn [fst snd] in *;
      (split; [exact G|reflexivity]).
  Qed.
  Lemma h_index_ok d seq st : hwf (hs st) ->
    hgood st (fst (h_index normalize d seq st)) /\
    (absk (fst (h_index normalize d seq st)), snd (h_index normalize d seq st)) = k_index normalize d seq (absk st).
  Proof.
    intros Hs. unfold h_index, k_index. cbn [krev absk kfwd knum threshold].
    destruct seq as [|[|x l]]; cbn [fst snd].
    - split; [apply good_refl, Hs|reflexivity].
    - destruct (get (hrev st) d) as [kw|].
      + destruct (is_empty kw); cbn [fst snd].
        * split; [apply good_refl, Hs|reflexivity].
        * destruct (h_unindex_ok d st Hs) as [G A]. split; [exact G|]. rewrite A. reflexivity.
      + split; [apply good_refl, Hs|reflexivity].
    - change (hheap st, hfwd st) with (hs st). generalize (set_of_list (normalize (x :: l))). intros nk.
      destruct (get (hrev st) d) as [old|].
      + destruct (h_remove_words_ok d (selems (mdiff old nk)) (hs st) Hs) as [G A]. rewrite <- A.
        destruct (h_remove_words d (selems (mdiff old nk)) (hs st)) as [[hp fwd] [u|e]]; cbn [fst snd] in *.
        2:{ split; [exact G|reflexivity]. }
        destruct (h_insert_forward_ok (hthr st) d (mdiff nk old) (hp, fwd) (proj1 G)) as [G' A'].
        rewrite <- A'. destruct (h_insert_forward (hthr st) d (mdiff nk old) (hp, fwd)) as [hp' fwd'] eqn:E.
        cbn [fst snd]. split; [|reflexivity].
        unfold hgood. eapply good_trans; [exact G|exact G'].
      + destruct (h_insert_forward_ok (hthr st) d nk (hs st) Hs) as [G A].
        rewrite <- A. destruct (h_insert_forward (hthr st) d nk (hs st)) as [hp' fwd'].
        cbn [fst snd]. split; [exact G|reflexivity].
  Qed.

  Definition opt_obj (thr : Z) (p : obj) : obj :=
    let '(is_tree, s) := p in
    if Zsize s >=? thr then (if negb is_tree then (true, s) else (is_tree, s))
    else (if is_tree then (false, s) else (is_tree, s)).
  Lemma h_optimize_word_ok thr s w l : hwf s -> get (snd s) w = Some l ->
    good s (h_optimize_word thr s (w, l)) /\
    absf (h_optimize_word thr s (w, l)) = put w (opt_obj thr (load (fst s) l)) (absf s) /\
    (forall w', w' <> w -> get (snd (h_optimize_word thr s (w, l))) w' = get (snd s) w').
  Proof.
    intros Hs Hw. unfold h_optimize_word. destruct s as [hp fwd]; cbn [fst snd] in *.
    assert (Hid : put w (load hp l) (absf (hp, fwd)) = absf (hp, fwd)).
    { apply put_same_id. rewrite get_absf; cbn [fst snd]. rewrite Hw. reflexivity. }
    destruct (load hp l) as [tr els] eqn:El. cbn [opt_obj].
    pose proof (fun o => good_put (hp, fwd) w o Hs) as Gp. pose proof (fun o => abs_put (hp, fwd) w o Hs) as Ap.
    cbn [fst snd] in Gp, Ap.
    destruct (Zsize els >=? thr), tr; cbn [negb].
    1,4: splits; [apply good_refl, Hs|symmetry; exact Hid|reflexivity].
    all: splits; [apply Gp|apply Ap|cbn [alloc snd]; intros w' Hn; rewrite get_put; apply eqb_neq in Hn; rewrite Hn; reflexivity].
  Qed.
  Lemma h_optimize_fold thr items s : hwf s -> NoDup (map fst items) ->
    (forall w l, In (w, l) items -> get (snd s) w = Some l) ->
    good s (fold_left (h_optimize_word thr) items s) /\
    forall w, get (absf (fold_left (h_optimize_word thr) items s)) w =
      match get (absf s) w with
      | Some p => Some (if existsb (eqb w) (map fst items) then opt_obj thr p else p)
      | None => None
      end.
  Proof.
    revert s; induction items as [|[w l] items IH]; intros s Hs Hnd Hin; cbn [fold_left map fst].
    - split; [apply good_refl, Hs|]. intros w. destruct (get (absf s) w); reflexivity.
    - inversion Hnd as [|? ? Hnx Hnd']; subst.
      pose proof (Hin w l (or_introl eq_refl)) as Hw.
      destruct (h_optimize_word_ok thr s w l Hs Hw) as (G & A & Ho).
      destruct (IH (h_optimize_word thr s (w, l)) (proj1 G) Hnd') as [G' A'].
      + intros w' l' Hi. rewrite Ho; [apply Hin; right; exact Hi|]. intros ->. apply Hnx.
        change w with (fst (w, l')). apply in_map, Hi.
      + split; [eapply good_trans; eassumption|]. intros w'. rewrite A', A, get_put. cbn [existsb].
        destruct (eqb w' w) eqn:E; [|reflexivity]. apply eqb_eq in E; subst.
        rewrite get_absf, Hw. cbn. destruct (existsb (eqb w) (map fst items)) eqn:Ex; [|reflexivity].
        apply existsb_eqb_In in Ex. contradiction.
  Qed.
  Lemma h_optimize_ok st : hwf (hs st) ->
    hgood st (h_optimize st) /\ absk (h_optimize st) = k_optimize (absk st).
  Proof.
    intros Hs. unfold h_optimize, k_optimize. change (hheap st, hfwd st) with (hs st).
    destruct (h_optimize_fold (hthr st) (elts (hfwd st)) (hs st) Hs) as [G A].
    - apply keys_NoDup.
    - intros w l Hi. apply get_In, Hi.
    - destruct (fold_left (h_optimize_word (hthr st)) (elts (hfwd st)) (hs st)) as [hp fwd]. split; [exact G|].
      unfold absk; cbn [kfwd krev knum threshold hs hheap hfwd hrev hnum hthr]. f_equal.
      apply smap_ext. intros w. change (hs (mkH hp fwd (hrev st) (hnum st) (hthr st))) with (hp, fwd).
      rewrite A, get_mmap. destruct (get (absf (hs st)) w) as [p|] eqn:E; [|reflexivity].
      assert (Ex : existsb (eqb w) (map fst (elts (hfwd st))) = true).
      { apply existsb_eqb_In. change (In w (keys (hfwd st))). apply keys_In. rewrite get_absf in E.
        cbn [hs snd] in E. destruct (get (hfwd st) w); [eauto|discriminate]. }
      rewrite Ex. destruct p as [tr els]. unfold opt_obj. destruct (Zsize els >=? hthr st), tr; reflexivity.
  Qed.

  (** ** Searches *)
  Lemma extends_good st hp' : hwf (hs st) -> extends (hheap st) hp' ->
    hgood st (mkH hp' (hfwd st) (hrev st) (hnum st) (hthr st)) /\
    absk (mkH hp' (hfwd st) (hrev st) (hnum st) (hthr st)) = absk st.
  Proof.
    intros [H1 H2] [E1 E2]. cbn [hs fst snd] in *. split.
    - split; [split|split]; cbn [hs fst snd hheap hfwd].
      + intros w l Hw. apply H1 in Hw. lia.
      + exact H2.
      + exact E1.
      + intros l [Hl Hn]. cbn [hs fst snd] in *. split; [apply E2, Hl|]. split; cbn [hs fst snd hheap hfwd]; [lia|exact Hn].
    - unfold absk; cbn [hheap hfwd hrev hnum hthr]. f_equal. apply smap_ext. intros w. rewrite !get_absf.
      cbn [hs fst snd hheap hfwd]. destruct (get (hfwd st) w) as [l|] eqn:E; [|reflexivity].
      rewrite E2; [reflexivity|]. eapply H1; exact E.
  Qed.

  Definition lookup fwd hp w : sset Z := match get fwd w with Some l => snd (load hp l) | None => empty end.
  Lemma h_sets_ok ws hp fwd : (forall w l, get fwd w = Some l -> l < next hp) ->
    let '(hp', ls) := h_sets ws hp fwd in
    extends hp hp' /\ map (fun l => snd (load hp' l)) ls = map (lookup fwd hp) ws /\
    Forall2 (fun w l => l < next hp' /\ (get fwd w = Some l \/ next hp <= l)) ws ls.
  Proof.
    revert hp; induction ws as [|w ws IH]; intros hp Hf; cbn [h_sets].
    - splits; [apply extends_refl|reflexivity|constructor].
    - cbn [alloc]. change (mkHeap (put (next hp) (false, empty) (cells hp)) (next hp + 1)) with (fst (alloc (false, empty) hp)).
      set (hp1 := fst (alloc (false, empty) hp)).
      pose proof (extends_alloc (false, empty) hp) as X1. fold hp1 in X1.
      specialize (IH hp1). destruct (h_sets ws hp1 fwd) as [hp2 ls].
      destruct IH as (X2 & HM & HF).
      { intros w' l' Hl. apply Hf in Hl. destruct X1; lia. }
      assert (X : extends hp hp2) by (eapply extends_trans; eassumption).
      assert (Hn1 : next hp1 = next hp + 1) by reflexivity.
      splits.
      + exact X.
      + cbn [map]. f_equal.
        * unfold lookup. destruct (get fwd w) as [l|] eqn:E.
          -- rewrite (proj2 X) by (eapply Hf; exact E). reflexivity.
          -- rewrite (proj2 X2) by lia. unfold hp1. rewrite load_alloc, eqb_refl. reflexivity.
        * rewrite HM. apply map_ext_in. intros w' _. unfold lookup. destruct (get fwd w') as [l'|] eqn:E; [|reflexivity].
          rewrite (proj2 X1) by (eapply Hf; exact E). reflexivity.
      + constructor.
        * destruct (get fwd w) as [l|] eqn:E.
          -- split; [apply Hf in E; destruct X; lia|left; reflexivity].
          -- split; [destruct X2; lia|right; lia].
        * clear -HF Hn1. induction HF as [|w' l' ws ls [Hl Hor] HF IH]; constructor; [|exact IH].
          split; [exact Hl|]. destruct Hor; [left; assumption|right; lia].
  Qed.

  Lemma h_and_loop_some r ls hp : r < next hp -> Forall (fun l => l < next hp) ls ->
    exists hp' r', h_and_loop (Some r) ls hp = (hp', Some r') /\ extends hp hp' /\ r' < next hp' /\
      and_loop (Some (snd (load hp r))) (map (fun l => snd (load hp l)) ls) = Some (snd (load hp' r')) /\
      (ls = [] /\ r' = r \/ next hp <= r').
  Proof.
    revert r hp; induction ls as [|l ls IH]; intros r hp Hr Hls; cbn [h_and_loop map and_loop].
    - exists hp, r. splits; auto using extends_refl.
    - inversion Hls as [|? ? Hl Hls']; subst.
      set (v := sinter (snd (load hp r)) (snd (load hp l))).
      pose proof (extends_alloc (false, v) hp) as X.
      assert (En : next (fst (alloc (false, v) hp)) = next hp + 1) by reflexivity.
      assert (Ev : load (fst (alloc (false, v) hp)) (next hp) = (false, v)) by (rewrite load_alloc, eqb_refl; reflexivity).
      assert (Ep : alloc (false, v) hp = (fst (alloc (false, v) hp), next hp)) by reflexivity.
      rewrite Ep. set (hp1 := fst (alloc (false, v) hp)) in *. clearbody hp1. rewrite Ev. cbn [snd].
      destruct (is_empty v) eqn:E.
      + exists hp1, (next hp). splits; auto; try lia. rewrite Ev. reflexivity.
      + destruct (IH (next hp) hp1) as (hp' & r' & H1 & H2 & H3 & H4 & H5).
        * lia.
        * eapply Forall_impl; [|exact Hls']. intros a Ha. cbn beta in *. lia.
        * exists hp', r'. splits; [exact H1|eapply extends_trans; eassumption|exact H3| |right; lia].
          rewrite <- H4, Ev. cbn [snd]. f_equal. apply map_ext_in. intros a Ha.
          rewrite Forall_forall in Hls'. rewrite (proj2 X); [reflexivity|]. apply Hls', Ha.
  Qed.
  Lemma h_and_loop_none ls hp : Forall (fun l => l < next hp) ls ->
    exists hp' rs, h_and_loop None ls hp = (hp', rs) /\ extends hp hp' /\
      and_loop None (map (fun l => snd (load hp l)) ls) = match rs with Some r => Some (snd (load hp' r)) | None => None end /\
      match rs with None => True | Some r => r < next hp' /\
        (next hp <= r \/ is_empty (snd (load hp' r)) = true \/ ls = [r]) end.
  Proof.
    destruct ls as [|l ls]; intros Hls; cbn [h_and_loop map and_loop].
    - exists hp, None. splits; auto using extends_refl.
    - inversion Hls as [|? ? Hl Hls']; subst. destruct (is_empty (snd (load hp l))) eqn:E.
      + exists hp, (Some l). splits; auto using extends_refl.
      + destruct (h_and_loop_some l ls hp Hl Hls') as (hp' & r' & H1 & H2 & H3 & H4 & H5).
        exists hp', (Some r'). splits; auto. destruct H5 as [[-> ->]|H5]; auto.
  Qed.

  Lemma h_result_ok hp rs : match rs with Some r => r < next hp | None => True end ->
    exists hp' r', h_result hp rs = (hp', r') /\ extends hp hp' /\ r' < next hp' /\
      snd (load hp' r') = match rs with Some r => if is_empty (snd (load hp r)) then empty else snd (load hp r) | None => empty end /\
      (next hp <= r' \/ rs = Some r' /\ is_empty (snd (load hp r')) = false).
  Proof.
    intros Hr.
    assert (Hf : exists hp' r', alloc (false, empty) hp = (hp', r') /\ extends hp hp' /\ r' < next hp' /\
      snd (load hp' r') = empty /\ next hp <= r').
    { exists (fst (alloc (false, empty) hp)), (next hp). splits; [reflexivity|apply extends_alloc|cbn; lia| |lia].
      rewrite load_alloc, eqb_refl. reflexivity. }
    unfold h_result. destruct rs as [r|].
    - destruct (is_empty (snd (load hp r))) eqn:E.
      + destruct Hf as (hp' & r' & ? & ? & ? & ? & ?). exists hp', r'. splits; auto.
      + exists hp, r. splits; auto using extends_refl.
    - destruct Hf as (hp' & r' & ? & ? & ? & ? & ?). exists hp', r'. splits; auto.
  Qed.

  Lemma h_search_ok q op st : hwf (hs st) ->
    let '(st', out) := h_search normalize q op st in
    hgood st st' /\ absk st' = absk st /\
    match out with
    | Raise e => k_search normalize q op (absk st) = Raise e
    | Ok r => k_search normalize q op (absk st) = Ok (contents st' r) /\
        (loose (hs st') r \/ live_query normalize q op = true /\ exists w, asked normalize q = [w] /\ get (hfwd st') w = Some r)
    end.
  Proof.
    intros Hs. rewrite <- query_words_asked. unfold h_search.
    pose proof (h_sets_ok (query_words normalize q) (hheap st) (hfwd st) (proj1 Hs)) as HS.
    destruct (h_sets (query_words normalize q) (hheap st) (hfwd st)) as [hp ls].
    destruct HS as (X & HM & HF).
    assert (Hsets : map (fun w => match get (kfwd (absk st)) w with Some p => snd p | None => empty end)
                        (query_words normalize q) = map (fun l => snd (load hp l)) ls).
    { rewrite HM. apply map_ext. intros w. cbn [absk kfwd]. rewrite get_absf. unfold lookup, hs; cbn [fst snd].
      destruct (get (hfwd st) w); reflexivity. }
    assert (Hlt : Forall (fun l => l < next hp) ls).
    { clear -HF. induction HF as [|? ? ? ? [? _]]; constructor; assumption. }
    unfold k_search. rewrite Hsets.
    assert (Hloose : forall r hp', extends (hheap st) hp' -> r < next hp' -> next (hheap st) <= r ->
      loose (hs (mkH hp' (hfwd st) (hrev st) (hnum st) (hthr st))) r).
    { intros r hp' X' Hr Hge. split; [exact Hr|]. cbn [hs fst snd hheap hfwd]. intros w Hw.
      apply (proj1 Hs) in Hw. cbn [hs fst] in Hw. lia. }
    destruct op.
    - (* and *)
      destruct (h_and_loop_none (isort (h_len_le hp) ls) hp) as (hp1 & rs & -> & X1 & HA & HR).
      { rewrite Forall_forall in *. intros l Hl. apply Hlt. eapply Permutation_in; [apply isort_perm|exact Hl]. }
      destruct (h_result_ok hp1 rs) as (hp2 & r2 & -> & X2 & Hr2 & HC & Hor).
      { destruct rs; [apply HR|exact I]. }
      assert (X' : extends (hheap st) hp2) by (eapply extends_trans; [exact X|eapply extends_trans; eassumption]).
      destruct (extends_good st hp2 Hs X') as [G A]. splits; [exact G|exact A| |].
      + cbn [combine_sets]. unfold contents; cbn [hheap]. rewrite HC. f_equal.
        rewrite <- (isort_map (fun l => snd (load hp l)) len_le ls). fold (h_len_le hp).
        change (fun x y : Z => len_le (snd (load hp x)) (snd (load hp y))) with (h_len_le hp).
        rewrite HA. destruct rs; reflexivity.
      + destruct X as [Xn _]. destruct X1 as [X1n X1l].
        destruct Hor as [Hge|[-> Hne]]; [left; apply Hloose; auto; lia|].
        destruct HR as [_ [Hge|[He|Heq]]]; [left; apply Hloose; auto; lia|congruence|].
        assert (Hls : ls = [r2]).
        { pose proof (isort_perm (h_len_le hp) ls) as P. rewrite Heq in P. apply Permutation_length_1_inv in P. exact P. }
        rewrite Hls in HF. inversion HF as [|w ? ws' ? [_ Hw] HF' E1 E2]; subst. inversion HF'; subst.
        destruct Hw as [Hw|Hge]; [|left; apply Hloose; auto].
        right. unfold live_query. rewrite <- query_words_asked, <- E1. split; [reflexivity|]. exists w. auto.
    - (* or *)
      destruct (alloc (false, multiunion (map (fun l => snd (load hp l)) ls)) hp) as [hp1 r] eqn:Ea.
      assert (X1 : extends hp hp1) by (replace hp1 with (fst (hp1, r)) by reflexivity; rewrite <- Ea; apply extends_alloc).
      assert (Hr : r = next hp) by (unfold alloc in Ea; injection Ea as _ <-; reflexivity).
      assert (Hr1 : r < next hp1) by (unfold alloc in Ea; injection Ea as <- <-; cbn; lia).
      assert (Hv : load hp1 r = (false, multiunion (map (fun l => snd (load hp l)) ls))).
      { subst r. replace hp1 with (fst (hp1, next hp)) by reflexivity. rewrite <- Ea, load_alloc, eqb_refl. reflexivity. }
      destruct (h_result_ok hp1 (Some r) Hr1) as (hp2 & r2 & -> & X2 & Hr2 & HC & Hor).
      assert (X' : extends (hheap st) hp2) by (eapply extends_trans; [exact X|eapply extends_trans; eassumption]).
      destruct (extends_good st hp2 Hs X') as [G A]. splits; [exact G|exact A| |].
      + cbn [combine_sets]. unfold contents; cbn [hheap]. rewrite HC, Hv. reflexivity.
      + left. apply Hloose; auto. destruct X as [Xn _], X1 as [X1n _].
        destruct Hor as [|[[= <-] _]]; lia.
    - destruct (extends_good st hp Hs X) as [G A]. splits; [exact G|exact A|reflexivity].
  Qed.

  (** ** Histories *)
  Lemma h_step_ok st o : hwf (hs st) ->
    hgood st (h_step normalize st o) /\
    absk (h_step normalize st o) = match o with HUpdate u => fst (k_step normalize (absk st) u) | HSearch _ _ => absk st end.
  Proof.
    intros Hs. destruct o as [[d seq|d| | |n]|q op]; cbn [h_step k_step fst].
    - destruct (h_index_ok d seq st Hs) as [G A]. split; [exact G|]. rewrite <- A. reflexivity.
    - apply h_unindex_ok, Hs.
    - split.
      + split; [split|split]; cbn [hs fst snd hheap hfwd].
        * intros w l. rewrite get_empty. discriminate.
        * intros w w' l. rewrite get_empty. discriminate.
        * lia.
        * intros l [Hl _]. split; [reflexivity|]. split; [exact Hl|]. cbn [hs snd hfwd]. intros w. rewrite get_empty. discriminate.
      + unfold absk, k_clear; cbn [hheap hfwd hrev hnum hthr threshold]. f_equal. apply smap_ext. intros w. rewrite get_absf. reflexivity.
    - apply h_optimize_ok, Hs.
    - split; [apply (good_refl _ Hs)|reflexivity].
    - pose proof (h_search_ok q op st Hs) as H. destruct (h_search normalize q op st) as [st' out].
      destruct H as (G & A & _). auto.
  Qed.
  Lemma h_exec_ok (h : list (hop W)) st : hwf (hs st) ->
    hgood st (h_exec normalize h st) /\
    absk (h_exec normalize h st) = fold_left (fun ks o => fst (k_step normalize ks o)) (updates h) (absk st).
  Proof.
    unfold h_exec. revert st; induction h as [|o h IH]; intros st Hs; cbn [fold_left].
    - split; [apply good_refl, Hs|reflexivity].
    - destruct (h_step_ok st o Hs) as [G A]. destruct (IH _ (proj1 G)) as [G' A'].
      split; [unfold hgood in *; eapply good_trans; eassumption|]. rewrite A', A. destruct o; reflexivity.
  Qed.
  Lemma hwf_new : hwf (hs (@h_new W _)).
  Proof. split; cbn [hs fst snd h_new hfwd]; intros; rewrite get_empty in *; discriminate. Qed.

  Lemma absk_new : absk (@h_new W _) = k_new.
  Proof. unfold absk, k_new; cbn [h_new hrev hnum hthr]. f_equal. apply smap_ext. intros w. rewrite get_absf. reflexivity. Qed.

  Lemma heap_search_same (h : list (hop W)) q op :
    rmap (contents (fst (h_search normalize q op (h_exec normalize h h_new)))) (snd (h_search normalize q op (h_exec normalize h h_new)))
    = k_search normalize q op (k_run normalize (updates h)).
  Proof.
    destruct (h_exec_ok h h_new hwf_new) as [G A].
    pose proof (h_search_ok q op _ (proj1 G)) as H.
    rewrite absk_new in A. change (absk (h_exec normalize h h_new) = k_run normalize (updates h)) in A.
    rewrite <- A. destruct (h_search normalize q op (h_exec normalize h h_new)) as [st' out]. cbn [fst snd].
    destruct H as (_ & _ & H). destruct out as [r|e]; cbn [rmap]; symmetry; apply H.
  Qed.

  Lemma snapshots (h1 h2 : list (hop W)) q op st' r :
    h_search normalize q op (h_exec normalize h1 h_new) = (st', Ok r) ->
    live_query normalize q op = false ->
    contents (h_exec normalize h2 st') r = contents st' r.
  Proof.
    intros E Hq. destruct (h_exec_ok h1 h_new hwf_new) as [G A].
    pose proof (h_search_ok q op _ (proj1 G)) as H. rewrite E in H.
    destruct H as (G' & _ & _ & [Hl|[Hc _]]); [|congruence].
    destruct (h_exec_ok h2 st' (proj1 G')) as [G'' _].
    unfold contents. destruct (proj2 (proj2 G'') r Hl) as [Hld _]. cbn [hs fst] in Hld. rewrite Hld. reflexivity.
  Qed.
End L.
