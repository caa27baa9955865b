(** * Conflict resolution keeps an index consistent *)
From Verif Require Import L_kwheap M_zodb S_zodb Sort SMap Ord.

(** ** Three-way merges *)
Lemma set_same_eq {K} `{Ord K} (s t : sset K) : set_same s t = true <-> s = t.
Proof.
  unfold set_same. rewrite andb_true_iff, !forallb_forall. split.
  - intros [H1 H2]. apply sset_ext. intros k. apply eq_true_iff_eq. split; intros Hk.
    + apply H1, selems_In, Hk.
    + apply H2, selems_In, Hk.
  - intros ->. split; intros k Hk; apply selems_In, Hk.
Qed.
Lemma obj_same_eq p q : obj_same p q = true <-> p = q.
Proof.
  unfold obj_same. rewrite andb_true_iff, set_same_eq. destruct p as [t s], q as [t' s']; cbn.
  rewrite Bool.eqb_true_iff. split; [intros [-> ->]; reflexivity|intros [= -> ->]; auto].
Qed.

Section Map3.
  Context {K X : Type} `{OK : Ord K}.
  Implicit Types (o a b m : smap K X) (k : K).

  Lemma mem_keyset m k : mem k (keyset m) = mem k m.
  Proof. unfold mem, keyset. rewrite get_mmap. destruct (get m k); reflexivity. Qed.

  Lemma map3_all f o a b m : map3 f o a b = Some m ->
    forall k, f k (get o k) (get a k) (get b k) = Some (get m k) \/
              (get o k = None /\ get a k = None /\ get b k = None /\ get m k = None).
  Proof.
    unfold map3. set (ks := selems _). set (body := fun (acc : option (smap K X)) k => _).
    assert (Hnone : forall l, fold_left body l None = None).
    { induction l as [|k l IH]; [reflexivity|]. cbn [fold_left]. unfold body at 2. exact IH. }
    assert (Hgen : forall l acc m, NoDup l -> fold_left body l (Some acc) = Some m ->
      forall k, (In k l -> get acc k = None -> f k (get o k) (get a k) (get b k) = Some (get m k)) /\
                (~ In k l -> get m k = get acc k)).
    { induction l as [|x l IH]; intros acc m' Hnd Hm k; cbn [fold_left] in Hm.
      - injection Hm as <-. split; [intros []|reflexivity].
      - inversion Hnd as [|? ? Hx Hnd']; subst. unfold body at 2 in Hm.
        destruct (f x (get o x) (get a x) (get b x)) as [[y|]|] eqn:E.
        + destruct (IH _ _ Hnd' Hm k) as [I1 I2]. split.
          * intros [->|Hk] Hacc.
            -- rewrite I2 by exact Hx. rewrite get_put_same. exact E.
            -- apply I1; [exact Hk|]. rewrite get_put_other; [exact Hacc|]. intros ->. contradiction.
          * intros Hn. rewrite I2 by (intros Hk; apply Hn; right; exact Hk).
            apply get_put_other. intros ->. apply Hn. left; reflexivity.
        + destruct (IH _ _ Hnd' Hm k) as [I1 I2]. split.
          * intros [->|Hk] Hacc; [|auto]. rewrite I2 by exact Hx. rewrite Hacc. exact E.
          * intros Hn. apply I2. intros Hk; apply Hn; right; exact Hk.
        + rewrite Hnone in Hm. discriminate. }
    intros Hm k. destruct (Hgen ks empty m) with (k := k) as [H1 H2].
    { unfold ks, selems. apply keys_NoDup. }
    { exact Hm. }
    destruct (mem k (sunion (keyset o) (sunion (keyset a) (keyset b)))) eqn:E.
    - left. apply H1; [apply selems_In, E|reflexivity].
    - assert (Hn : ~ In k ks) by (intros Hk; apply selems_In in Hk; congruence).
      rewrite (H2 Hn), get_empty. rewrite !mem_sunion, !mem_keyset, !orb_false_iff in E. destruct E as (E1 & E2 & E3).
      apply mem_false in E1, E2, E3. right. auto.
  Qed.
  Lemma map3_total f o a b : (forall k, f k (get o k) (get a k) (get b k) <> None) -> exists m, map3 f o a b = Some m.
  Proof.
    intros Hf. unfold map3. generalize (selems (sunion (keyset o) (sunion (keyset a) (keyset b)))). intros l.
    generalize (@empty K X _). induction l as [|k l IH]; intros acc; cbn [fold_left]; [eauto|].
    specialize (Hf k). destruct (f k (get o k) (get a k) (get b k)) as [[x|]|]; [apply IH|apply IH|congruence].
  Qed.
  Lemma map3_spec f o a b m : (forall k, f k None None None = Some None) -> map3 f o a b = Some m ->
    forall k, f k (get o k) (get a k) (get b k) = Some (get m k).
  Proof.
    intros Hf Hm k. destruct (map3_all _ _ _ _ _ Hm k) as [H|(-> & -> & -> & ->)]; [exact H|apply Hf].
  Qed.
End Map3.

Definition eq_test {X} (same : X -> X -> bool) : Prop := forall x y, same x y = true <-> x = y.
Lemma opt_same_eq {X} (same : X -> X -> bool) : eq_test same -> eq_test (opt_same same).
Proof.
  intros H [x|] [y|]; cbn [opt_same]; try (split; (discriminate || congruence)).
  specialize (H x y). split; intros E; [f_equal; apply H, E|apply H; congruence].
Qed.
(** What a merged key is. *)
Definition merged {A} (o a b m : A) : Prop := (a = o /\ m = b) \/ (a <> o /\ b = o /\ m = a).
Lemma key3_merged {X} (same : X -> X -> bool) o a b m : eq_test same ->
  key3 same o a b = Some m -> merged o a b m.
Proof.
  intros H. pose proof (opt_same_eq same H) as H'. unfold key3.
  destruct (opt_same same a o) eqn:E1; [intros [= <-]; left; split; [apply H', E1|reflexivity]|].
  destruct (opt_same same b o) eqn:E2; [|discriminate]. intros [= <-]. right. splits; [|apply H', E2|reflexivity].
  intros E. apply H' in E. congruence.
Qed.
Lemma merged_proj {A B} (f : A -> B) (o a b m : A) : merged o a b m ->
  (f a = f o \/ f b = f o) /\ (f a = f o -> f m = f b) /\ (f b = f o -> f m = f a).
Proof.
  intros [[-> ->]|(H1 & -> & ->)]; splits; auto; congruence.
Qed.

Lemma mem_true_opt (s : sset Z) d : get s d = if mem d s then Some tt else None.
Proof. apply sset_get. Qed.
(** Sets: membership is merged document by document. *)
Lemma set3_merged o a b s : set3 o a b = Some s ->
  (a = o /\ s = b) \/ (a <> o /\ b = o /\ s = a) \/
  (a <> o /\ b <> o /\ is_empty a = false /\ is_empty b = false /\ is_empty s = false /\
   forall d, merged (mem d o) (mem d a) (mem d b) (mem d s)).
Proof.
  unfold set3. destruct (set_same a o) eqn:E1.
  { intros [= <-]. left. split; [apply set_same_eq, E1|reflexivity]. }
  assert (N1 : a <> o) by (intros E; apply set_same_eq in E; congruence).
  destruct (set_same b o) eqn:E2.
  { intros [= <-]. right; left. splits; [exact N1|apply set_same_eq, E2|reflexivity]. }
  assert (N2 : b <> o) by (intros E; apply set_same_eq in E; congruence).
  destruct (is_empty a) eqn:Ea; [discriminate|]. destruct (is_empty b) eqn:Eb; [discriminate|]. cbn [orb].
  destruct (map3 _ o a b) as [s'|] eqn:E; [|discriminate]. destruct (is_empty s') eqn:Es; [discriminate|].
  intros [= <-]. right; right. splits; auto. intros d.
  pose proof (map3_spec _ _ _ _ _ (fun _ => eq_refl) E d) as H.
  apply key3_merged in H; [|intros [] []; tauto].
  rewrite !mem_true_opt in H.
  destruct H as [[H1 H2]|(H1 & H2 & H3)]; [left|right].
  - split; [destruct (mem d a), (mem d o)|destruct (mem d s'), (mem d b)]; congruence.
  - splits; [destruct (mem d a), (mem d o)|destruct (mem d b), (mem d o)|destruct (mem d s'), (mem d a)]; congruence.
Qed.
Lemma obj3_merged o a b p : obj3 o a b = Some p ->
  (a = o /\ p = b) \/ (a <> o /\ b = o /\ p = a) \/
  (is_empty (snd a) = false /\ is_empty (snd b) = false /\ is_empty (snd p) = false /\ fst p = fst o /\
   forall d, merged (mem d (snd o)) (mem d (snd a)) (mem d (snd b)) (mem d (snd p))) \/
  (fst a <> fst o \/ fst b <> fst o).
Proof.
  unfold obj3. destruct (obj_same a o) eqn:E1.
  { intros [= <-]. left. split; [apply obj_same_eq, E1|reflexivity]. }
  assert (N1 : a <> o) by (intros E; apply obj_same_eq in E; congruence).
  destruct (obj_same b o) eqn:E2.
  { intros [= <-]. right; left. splits; [exact N1|apply obj_same_eq, E2|reflexivity]. }
  assert (N2 : b <> o) by (intros E; apply obj_same_eq in E; congruence).
  destruct (Bool.bool_dec (fst a) (fst o)) as [F1|F1]; [|intros _; do 3 right; left; exact F1].
  destruct (Bool.bool_dec (fst b) (fst o)) as [F2|F2]; [|intros _; do 3 right; right; exact F2].
  destruct (set3 (snd o) (snd a) (snd b)) as [s|] eqn:E; [|discriminate]. intros [= <-]. do 2 right; left.
  destruct o as [to so], a as [ta sa], b as [tb sb]; cbn [fst snd] in *; subst.
  destruct (set3_merged _ _ _ _ E) as [[-> ->]|[(_ & -> & ->)|(_ & _ & H1 & H2 & H3 & H4)]].
  - destruct N1; reflexivity.
  - destruct N2; reflexivity.
  - splits; auto.
Qed.
Lemma heap3_spec o a b hp : heap3 o a b = Some hp ->
  next hp = Z.max (next a) (next b) /\
  (forall l, next a <= l -> load hp l = load b l) /\
  (forall l, l < next a -> next o <= l -> load hp l = load a l) /\
  (forall l, l < next a -> l < next o -> obj3 (load o l) (load a l) (load b l) = Some (load hp l)).
Proof.
  unfold heap3. set (f := fun (l : Z) (x y z : option obj) => _).
  destruct (map3 f (cells o) (cells a) (cells b)) as [c|] eqn:E; [|discriminate]. intros [= <-].
  pose proof (map3_all _ _ _ _ _ E) as H. unfold load; cbn [cells].
  split; [reflexivity|]. split; [|split]; intros l.
  - intros Hl. destruct (H l) as [Hf|(_ & _ & -> & ->)]; [|reflexivity]. unfold f in Hf.
    destruct (Z.leb_spec (next a) l); [|lia]. injection Hf as ->. reflexivity.
  - intros Hl Hl'. destruct (H l) as [Hf|(_ & -> & _ & ->)]; [|reflexivity]. unfold f in Hf.
    destruct (Z.leb_spec (next a) l); [lia|]. destruct (Z.leb_spec (next o) l); [|lia]. injection Hf as ->. reflexivity.
  - intros Hl Hl'. destruct (H l) as [Hf|(-> & -> & -> & ->)]; [|reflexivity]. unfold f in Hf.
    destruct (Z.leb_spec (next a) l); [lia|]. destruct (Z.leb_spec (next o) l); [lia|].
    unfold option_map, the_obj in Hf. destruct (obj3 _ _ _) as [p|]; [|discriminate]. injection Hf as <-. reflexivity.
Qed.

(** ** Merging the documents' values: their number *)
Lemma Zsize_count {K X} `{Ord K} (m : smap K X) (L : list K) : NoDup L -> (forall k, mem k m = true -> In k L) ->
  Zsize m = Zlen (filter (fun k => mem k m) L).
Proof.
  intros HL Hin. unfold Zsize, size, Zlen. f_equal. rewrite <- (map_length fst). fold (keys m).
  apply Permutation_length, NoDup_Permutation; [apply keys_NoDup|apply NoDup_filter, HL|].
  intros k. rewrite filter_In, keys_mem. split; [auto|tauto].
Qed.
Lemma merged_size {K X} `{Ord K} (o a b m : smap K X) :
  (forall k, merged (get o k) (get a k) (get b k) (get m k)) -> Zsize m = Zsize a + Zsize b - Zsize o.
Proof.
  intros Hm. set (L := selems (sunion (sunion (keyset o) (keyset a)) (sunion (keyset b) (keyset m)))).
  assert (HL : NoDup L) by apply keys_NoDup.
  assert (Hin : forall k, In k L <-> mem k o = true \/ mem k a = true \/ mem k b = true \/ mem k m = true).
  { intros k. unfold L. rewrite selems_In, !mem_sunion, !mem_keyset, !orb_true_iff. tauto. }
  rewrite !(Zsize_count _ L HL) by (intros k Hk; apply Hin; auto). clearbody L. clear Hin HL.
  unfold Zlen. induction L as [|k L IH]; [reflexivity|]. cbn [filter].
  destruct (merged_proj is_some _ _ _ _ (Hm k)) as (H1 & H2 & H3).
  change (is_some (get o k)) with (mem k o) in *. change (is_some (get a k)) with (mem k a) in *.
  change (is_some (get b k)) with (mem k b) in *. change (is_some (get m k)) with (mem k m) in *.
  destruct (mem k o), (mem k a), (mem k b), (mem k m); cbn [length]; try lia; exfalso;
    destruct H1 as [H1|H1]; try discriminate; (discriminate (H2 H1) || discriminate (H3 H1) || (now specialize (H2 eq_refl)) || now specialize (H3 eq_refl)).
Qed.

Lemma of_list_of_elts {K X} `{Ord K} (m : smap K X) : of_list (elts m) = m.
Proof.
  apply smap_ext. intros k. rewrite get_of_list. unfold get.
  destruct (rget (rev (elts m)) k) as [v|] eqn:E.
  - symmetry. apply get_In. assert (Hg : forall (l : list (K * X)) k v, rget l k = Some v -> In (k, v) l).
    { induction l as [|[k0 v0] l IH]; intros k' v'; cbn [rget]; [discriminate|].
      destruct (eqb k' k0) eqn:Ek; [apply eqb_eq in Ek as ->; intros [= ->]; left; reflexivity|].
      intros H'. right. auto. }
    apply Hg in E. apply in_rev in E. exact E.
  - symmetry. apply rget_None_notin. apply rget_None_notin in E. intros Hin. apply E.
    rewrite map_rev. apply -> in_rev. exact Hin.
Qed.

Lemma existsb_false {A} (f : A -> bool) l : existsb f l = false -> forall x, In x l -> f x = false.
Proof.
  intros H x Hx. destruct (f x) eqn:E; [|reflexivity].
  assert (Ht : existsb f l = true) by (apply existsb_exists; eauto). congruence.
Qed.

(** ** Merging posting sets *)
Section Generic.
  Context {V R : Type} `{OV : Ord V}.
  Variable has : R -> V -> bool.
  Notation hf := (mem_heap * smap V Z)%type.
  Implicit Types (s o a b : hf) (v w : V) (x l d : Z) (r : smap Z R).

  (** What happens to the posting sets of [s] on the way to [s']: they stay the
      posting sets of their value, or are emptied and dropped for good. *)
  Definition evolves s s' : Prop :=
    frame s s' /\
    forall v x, get (snd s) v = Some x ->
      fst (load (fst s') x) = fst (load (fst s) x) /\
      (get (snd s') v = Some x \/ (loose s' x /\ is_empty (snd (load (fst s') x)) = true)).
  Lemma evolves_refl s : evolves s s.
  Proof. split; [apply frame_refl|auto]. Qed.
  Lemma evolves_trans s1 s2 s3 : evolves s1 s2 -> evolves s2 s3 -> evolves s1 s3.
  Proof.
    intros [F1 H1] [F2 H2]. split; [eapply frame_trans; eassumption|]. intros v x Hv.
    destruct (H1 v x Hv) as [E1 [Hl|[Hl He]]].
    - destruct (H2 v x Hl) as [E2 H]. split; [congruence|exact H].
    - destruct (proj2 F2 x Hl) as [E2 Hl']. split; [congruence|]. right. split; [exact Hl'|congruence].
  Qed.

  Definition holds r d v : bool := match get r d with Some y => has y v | None => false end.
  Definition fits s r : Prop := forall v,
    match get (snd s) v with
    | Some x => is_empty (snd (load (fst s) x)) = false /\ forall d, mem d (snd (load (fst s) x)) = holds r d v
    | None => forall d, holds r d v = false
    end.
  Definition raise (n : Z) s : hf := (mkHeap (cells (fst s)) n, snd s).

  Section M.
    Variables o a b : hf.
    Variable hp : mem_heap.
    Variable fwd : smap V Z.
    Variables ro ra rb rm : smap Z R.
    Hypothesis Wo : hwf o.
    Hypothesis Wa : hwf a.
    Hypothesis Wb : hwf b.
    Hypothesis Fo : fits o ro.
    Hypothesis Fa : fits a ra.
    Hypothesis Fb : fits b rb.
    Hypothesis Ea : evolves o a.
    Hypothesis Eb : evolves (raise (next (fst a)) o) b.
    Hypothesis Hhp : heap3 (fst o) (fst a) (fst b) = Some hp.
    Hypothesis Hfwd : forall v, merged (get (snd o) v) (get (snd a) v) (get (snd b) v) (get fwd v).
    Hypothesis Hrev : forall d, merged (get ro d) (get ra d) (get rb d) (get rm d).

    Let Hna : next (fst o) <= next (fst a).
    Proof. apply Ea. Qed.
    Let Hnb : next (fst a) <= next (fst b).
    Proof. apply Eb. Qed.

    Lemma old_a v x : get (snd a) v = Some x -> x < next (fst o) -> get (snd o) v = Some x.
    Proof.
      intros Hv Hx. destruct (existsb (fun p => eqb (snd p) x) (elts (snd o))) eqn:E.
      - apply existsb_exists in E as [[w x'] [Hin Hw]]. cbn in Hw. apply eqb_eq in Hw; subst x'.
        apply get_In in Hin. destruct (proj2 Ea w x Hin) as [_ [Hl|[[_ Hl] _]]].
        + rewrite (proj2 Wa _ _ _ Hv Hl). exact Hin.
        + destruct (Hl v Hv).
      - assert (Hl : loose o x).
        { split; [exact Hx|]. intros w Hw. apply get_In in Hw. apply (existsb_false _ _ E) in Hw. cbn in Hw.
          rewrite eqb_refl in Hw. discriminate. }
        apply (proj2 (proj1 Ea)) in Hl as [_ [_ Hl]]. destruct (Hl v Hv).
    Qed.
    Lemma old_b v x : get (snd b) v = Some x -> x < next (fst a) -> get (snd o) v = Some x.
    Proof.
      intros Hv Hx. destruct (existsb (fun p => eqb (snd p) x) (elts (snd o))) eqn:E.
      - apply existsb_exists in E as [[w x'] [Hin Hw]]. cbn in Hw. apply eqb_eq in Hw; subst x'.
        apply get_In in Hin. destruct (proj2 Eb w x Hin) as [_ [Hl|[[_ Hl] _]]].
        + rewrite (proj2 Wb _ _ _ Hv Hl). exact Hin.
        + destruct (Hl v Hv).
      - assert (Hl : loose (raise (next (fst a)) o) x).
        { split; [exact Hx|]. intros w Hw. cbn in Hw. apply get_In in Hw. apply (existsb_false _ _ E) in Hw. cbn in Hw.
          rewrite eqb_refl in Hw. discriminate. }
        apply (proj2 (proj1 Eb)) in Hl as [_ [_ Hl]]. destruct (Hl v Hv).
    Qed.

    (** Document by document, which value it has is merged. *)
    Lemma holds_merged d v :
      (holds ra d v = holds ro d v -> holds rm d v = holds rb d v) /\
      (holds rb d v = holds ro d v -> holds rm d v = holds ra d v).
    Proof. apply (merged_proj (fun q : option R => match q with Some y => has y v | None => false end) _ _ _ _ (Hrev d)). Qed.

    (** A posting set of the version both began with. *)
    Lemma common v x : get (snd o) v = Some x ->
      let po := load (fst o) x in let pa := load (fst a) x in let pb := load (fst b) x in let pm := load hp x in
      is_empty (snd po) = false /\ fst pm = fst po /\
      ((pa = po /\ pm = pb) \/ (pb = po /\ pm = pa) \/
       (is_empty (snd pa) = false /\ is_empty (snd pb) = false /\ is_empty (snd pm) = false /\
        forall d, merged (mem d (snd po)) (mem d (snd pa)) (mem d (snd pb)) (mem d (snd pm)))).
    Proof.
      intros Hv po pa pb pm. pose proof (Fo v) as Fv. rewrite Hv in Fv. split; [apply Fv|].
      pose proof (proj1 Wo _ _ Hv) as Hx.
      destruct (proj2 Ea v x Hv) as [T1 _]. destruct (proj2 Eb v x Hv) as [T2 _].
      change (fst pb = fst po) in T2. change (fst pa = fst po) in T1.
      destruct (heap3_spec _ _ _ _ Hhp) as (_ & _ & _ & H). specialize (H x ltac:(lia) Hx).
      apply obj3_merged in H as [[E1 E2]|[(_ & E1 & E2)|[(H1 & H2 & H3 & H4 & H5)|[H|H]]]].
      - split; [fold pm pb in E2; congruence|]. left. auto.
      - split; [fold pm pa in E2; congruence|]. right; left. auto.
      - split; [exact H4|]. right; right. auto.
      - destruct (H T1).
      - destruct (H T2).
    Qed.
    (** If the other side dropped it, this side did not touch it. *)
    Lemma dropped_b v x : get (snd o) v = Some x -> is_empty (snd (load (fst b) x)) = true ->
      load (fst a) x = load (fst o) x /\ load hp x = load (fst b) x.
    Proof.
      intros Hv He. destruct (common v x Hv) as (Hn & _ & [H|[[E1 E2]|(_ & E & _)]]).
      - exact H.
      - rewrite E1 in He. congruence.
      - congruence.
    Qed.
    Lemma dropped_a v x : get (snd o) v = Some x -> is_empty (snd (load (fst a) x)) = true ->
      load (fst b) x = load (fst o) x /\ load hp x = load (fst a) x.
    Proof.
      intros Hv He. destruct (common v x Hv) as (Hn & _ & [[E1 E2]|[H|(E & _)]]).
      - rewrite E1 in He. congruence.
      - exact H.
      - congruence.
    Qed.
    Lemma same_holds s r (s' : hf) r' v x : fits s r -> fits s' r' -> get (snd s) v = Some x -> get (snd s') v = Some x ->
      load (fst s') x = load (fst s) x -> forall d, holds r' d v = holds r d v.
    Proof.
      intros F F' Hv Hv' E d. pose proof (F v) as H. pose proof (F' v) as H'. rewrite Hv in H. rewrite Hv' in H'.
      rewrite <- (proj2 H), <- (proj2 H'), E. reflexivity.
    Qed.

    Lemma merged_fits : fits (hp, fwd) rm.
    Proof.
      destruct (heap3_spec _ _ _ _ Hhp) as (Hn & Hlb & Hla & _).
      intros v. cbn [fst snd]. destruct (Hfwd v) as [[E1 E2]|(N & E1 & E2)]; rewrite E2; clear E2.
      - (* the first committer left the entry alone *)
        pose proof (Fb v) as Gb. destruct (get (snd o) v) as [x|] eqn:Ho.
        + destruct (proj2 Eb v x Ho) as [_ [Hb|[Hb He]]].
          * (* so did the second *)
            rewrite Hb in *. destruct Gb as [Gb1 Gb2]. pose proof (Fa v) as Ga. rewrite E1 in Ga. destruct Ga as [Ga1 Ga2].
            pose proof (Fo v) as Go. rewrite Ho in Go. destruct Go as [Go1 Go2].
            destruct (common v x Ho) as (_ & _ & [[Ex Em]|[[Ex Em]|(_ & _ & Hm & Hd)]]).
            -- rewrite Em. split; [exact Gb1|]. intros d. rewrite Gb2. symmetry. apply holds_merged.
               apply (same_holds o ro a ra v x); auto.
            -- rewrite Em. split; [exact Ga1|]. intros d. rewrite Ga2. symmetry. apply holds_merged.
               apply (same_holds o ro b rb v x); auto.
            -- split; [exact Hm|]. intros d. destruct (merged_proj id _ _ _ _ (Hd d)) as (Hor & H1 & H2).
               unfold id in *. rewrite Ga2, Gb2, Go2 in *. destruct (holds_merged d v) as [M1 M2].
               destruct Hor as [Hor|Hor]; [rewrite (H1 Hor), (M1 Hor)|rewrite (H2 Hor), (M2 Hor)]; reflexivity.
          * (* the second dropped the set *)
            destruct (dropped_b v x Ho He) as [Ex _].
            assert (Hm : forall d, holds rm d v = holds rb d v).
            { intros d. apply holds_merged. apply (same_holds o ro a ra v x); auto. }
            destruct (get (snd b) v) as [y|] eqn:Hy.
            -- assert (Hya : next (fst a) <= y).
               { destruct (Z.lt_ge_cases y (next (fst a))) as [Hlt|]; [|assumption].
                 apply (old_b v y Hy) in Hlt. rewrite Ho in Hlt. injection Hlt as <-. destruct (proj2 Hb v Hy). }
               rewrite (Hlb y Hya). split; [apply Gb|]. intros d. rewrite Hm. apply Gb.
            -- intros d. rewrite Hm. apply Gb.
        + pose proof (Fa v) as Ga. rewrite E1 in Ga. pose proof (Fo v) as Go. rewrite Ho in Go.
          assert (Hm : forall d, holds rm d v = holds rb d v).
          { intros d. apply holds_merged. rewrite Ga, Go. reflexivity. }
          destruct (get (snd b) v) as [y|] eqn:Hy.
          * assert (Hya : next (fst a) <= y).
            { destruct (Z.lt_ge_cases y (next (fst a))) as [Hlt|]; [|assumption].
              apply (old_b v y Hy) in Hlt. congruence. }
            rewrite (Hlb y Hya). split; [apply Gb|]. intros d. rewrite Hm. apply Gb.
          * intros d. rewrite Hm. apply Gb.
      - (* the first changed the entry, the second did not *)
        pose proof (Fa v) as Ga.
        assert (Hm : forall d, holds rm d v = holds ra d v).
        { intros d. apply holds_merged. destruct (get (snd o) v) as [x|] eqn:Ho.
          - destruct (proj2 Ea v x Ho) as [_ [Hl|[_ He]]]; [destruct (N Hl)|].
            destruct (dropped_a v x Ho He) as [Ex _]. apply (same_holds o ro b rb v x); auto.
          - pose proof (Fb v) as Gb. rewrite E1 in Gb. pose proof (Fo v) as Go. rewrite Ho in Go.
            rewrite Gb, Go. reflexivity. }
        destruct (get (snd a) v) as [y|] eqn:Hy.
        + assert (Hyo : next (fst o) <= y).
          { destruct (Z.lt_ge_cases y (next (fst o))) as [Hlt|]; [|assumption].
            apply (old_a v y Hy) in Hlt. congruence. }
          pose proof (proj1 Wa _ _ Hy) as Hya. rewrite (Hla y Hya Hyo). split; [apply Ga|]. intros d. rewrite Hm. apply Ga.
        + intros d. rewrite Hm. apply Ga.
    Qed.

    Lemma fwd_from v x : get fwd v = Some x ->
      (get (snd a) v = Some x /\ next (fst o) <= x < next (fst a)) \/
      (get (snd b) v = Some x /\ next (fst a) <= x) \/
      (get (snd a) v = Some x /\ get (snd b) v = Some x /\ get (snd o) v = Some x /\ x < next (fst o)).
    Proof.
      intros Hv. destruct (Hfwd v) as [[E1 E2]|(N & E1 & E2)]; rewrite E2 in Hv.
      - destruct (Z.lt_ge_cases x (next (fst a))) as [Hlt|]; [|auto]. pose proof (old_b v x Hv Hlt) as Ho.
        right; right. splits; auto; [congruence|]. eapply Wo, Ho.
      - pose proof (proj1 Wa _ _ Hv). destruct (Z.lt_ge_cases x (next (fst o))) as [Hlt|]; [|left; split; [assumption|lia]].
        pose proof (old_a v x Hv Hlt) as Ho. congruence.
    Qed.
    Lemma merged_hwf : hwf (hp, fwd).
    Proof.
      destruct (heap3_spec _ _ _ _ Hhp) as (Hn & _). split; cbn [fst snd].
      - intros v x Hv. rewrite Hn. apply fwd_from in Hv as [[H _]|[[H _]|(H & _)]].
        + apply (proj1 Wa) in H. lia.
        + apply (proj1 Wb) in H. lia.
        + apply (proj1 Wa) in H. lia.
      - intros v w x Hv Hw. apply fwd_from in Hv, Hw.
        destruct Hv as [[Hv ?]|[[Hv ?]|(Hv & _ & Hv' & ?)]], Hw as [[Hw ?]|[[Hw ?]|(Hw & _ & Hw' & ?)]]; try lia.
        + eapply Wa; eassumption.
        + eapply Wb; eassumption.
        + eapply Wo; eassumption.
    Qed.

    Lemma merged_evolves : evolves a (hp, fwd).
    Proof.
      destruct (heap3_spec _ _ _ _ Hhp) as (Hn & Hlb & Hla & Hlo). split; [split|]; cbn [fst snd].
      - lia.
      - intros l [Hl Hloose].
        assert (HL : loose (hp, fwd) l).
        { split; [cbn [fst]; lia|]. cbn [snd]. intros v Hv. apply fwd_from in Hv as [[H _]|[[H ?]|(H & _)]]; [|lia|];
            destruct (Hloose v H). }
        split; [|exact HL].
        destruct (Z.lt_ge_cases l (next (fst o))) as [Hlt|Hge]; [|apply Hla; assumption].
        specialize (Hlo l Hl Hlt).
        destruct (existsb (fun p => eqb (snd p) l) (elts (snd o))) eqn:E.
        + apply existsb_exists in E as [[w x'] [Hin Hw]]. cbn in Hw. apply eqb_eq in Hw; subst x'.
          apply get_In in Hin. destruct (proj2 Ea w l Hin) as [_ [Hl'|[_ He]]]; [destruct (Hloose w Hl')|].
          apply (dropped_a w l Hin He).
        + assert (Ho : forall w, get (snd o) w <> Some l).
          { intros w Hw. apply get_In in Hw. apply (existsb_false _ _ E) in Hw. cbn in Hw. rewrite eqb_refl in Hw. discriminate. }
          destruct (proj2 (proj1 Ea) l (conj Hlt Ho)) as [La _].
          assert (Hb : loose (raise (next (fst a)) o) l) by (split; [exact Hl|exact Ho]).
          destruct (proj2 (proj1 Eb) l Hb) as [Lb _]. change (load (fst b) l = load (fst o) l) in Lb.
          rewrite La, Lb in Hlo.
          unfold obj3 in Hlo. rewrite (proj2 (obj_same_eq _ _) eq_refl) in Hlo. congruence.
      - intros v x Hv. destruct (Z.lt_ge_cases x (next (fst o))) as [Hlt|Hge].
        + pose proof (old_a v x Hv Hlt) as Ho. destruct (common v x Ho) as (_ & Ht & _).
          destruct (proj2 Ea v x Ho) as [T1 _]. split; [congruence|].
          destruct (proj2 Eb v x Ho) as [_ [Hb|[Hb He]]].
          * left. destruct (Hfwd v) as [[E1 ->]|(N & _ & _)]; [exact Hb|]. congruence.
          * right. destruct (dropped_b v x Ho He) as [_ Em]. rewrite Em. split; [|exact He].
            split; [cbn [fst]; pose proof (proj1 Wa _ _ Hv); lia|]. cbn [snd]. intros w Hw.
            apply fwd_from in Hw as [[H ?]|[[H _]|(_ & H & _)]]; [lia| |]; destruct (proj2 Hb w H).
        + pose proof (proj1 Wa _ _ Hv) as Hx. rewrite (Hla x Hx Hge). split; [reflexivity|]. left.
          destruct (Hfwd v) as [[E1 _]|(_ & _ & ->)]; [|exact Hv].
          rewrite E1 in Hv. apply (proj1 Wo) in Hv. lia.
    Qed.
  End M.
End Generic.

(** ** The specification of a commit *)
Lemma merged_committed {X} (snap cur own new : smap Z X) :
  (forall d, merged (get snap d) (get cur d) (get own d) (get new d)) -> committed false false snap cur own new.
Proof.
  intros H d. destruct (H d) as [[E1 E2]|(N & E1 & E2)]; rewrite E2; split; intros; try congruence; auto.
Qed.

(** ** Primitive changes of the posting sets *)
Section Primitive.
  Context {V : Type} `{OV : Ord V}.
  Notation hf := (mem_heap * smap V Z)%type.
  Implicit Types (s : hf) (v w : V) (x l d : Z).

  Lemma evolves_store s v l e : hwf s -> get (snd s) v = Some l ->
    evolves s (store l (fst (load (fst s) l), e) (fst s), snd s).
  Proof.
    intros Hs Hv. split; [apply (good_store s v l _ Hs Hv)|]. cbn [fst snd]. intros w x Hw. split; [|left; exact Hw].
    rewrite load_store. destruct (eqb x l) eqn:E; [|reflexivity]. apply eqb_eq in E; subst. reflexivity.
  Qed.
  Lemma evolves_drop s v l : hwf s -> get (snd s) v = Some l -> is_empty (snd (load (fst s) l)) = true ->
    evolves s (fst s, del v (snd s)).
  Proof.
    intros Hs Hv He. split; [apply (good_del s v Hs)|]. cbn [fst snd]. intros w x Hw. split; [reflexivity|].
    rewrite get_del. destruct (eqb w v) eqn:E; [|left; exact Hw]. right. apply eqb_eq in E; subst.
    rewrite Hv in Hw. injection Hw as <-. split; [|exact He]. split; [apply (proj1 Hs _ _ Hv)|]. cbn [snd].
    intros w. rewrite get_del. destruct (eqb w v) eqn:E; [discriminate|]. intros Hw. apply eqb_neq in E. apply E.
    eapply Hs; eassumption.
  Qed.
  Lemma evolves_new s v o : hwf s -> get (snd s) v = None ->
    evolves s (fst (alloc o (fst s)), put v (next (fst s)) (snd s)).
  Proof.
    intros Hs Hv. split; [apply (good_put s v o Hs)|]. cbn [fst snd]. intros w x Hw.
    rewrite load_alloc, Zeqb_lt by (eapply Hs; eassumption). split; [reflexivity|].
    left. rewrite get_put_other; [exact Hw|]. intros ->. congruence.
  Qed.
End Primitive.

(** ** Committed versions *)
Section Db.
  Context {V R Op : Type} `{OV : Ord V}.
  Variable has : R -> V -> bool.
  Variable same : R -> R -> bool.
  Variable comparable : V -> V -> bool.
  Variable okR : R -> Prop.
  Variable flag : bool.
  Notation zst := (zstate V R).
  Variable step : zst -> Op -> zst.
  Variable okstep : zst -> Op -> Prop.
  Implicit Types (st o a b snap cur own : zst) (vs : list zst) (op : Op).

  Hypothesis same_eq : eq_test same.
  Hypothesis comparable_refl : forall v, comparable v v = true.
  Hypothesis comparable_sym : forall v w, comparable v w = comparable w v.

  Definition zs st : mem_heap * smap V Z := (zheap st, zfwd st).
  Definition zinv st : Prop :=
    hwf (zs st) /\ fits has (zs st) (zrev st) /\ znum st = Zsize (zrev st) /\
    (forall v w, In v (keys (zfwd st)) -> In w (keys (zfwd st)) -> comparable v w = true) /\
    (forall d r, get (zrev st) d = Some r -> okR r) /\
    (forall v x, get (zfwd st) v = Some x -> fst (load (zheap st) x) = flag).
  (** A later version. *)
  Definition zrel st st' : Prop :=
    zgen st <= zgen st' /\ next (zheap st) <= next (zheap st') /\
    (zgen st = zgen st' -> evolves (zs st) (zs st')).
  Lemma zrel_refl st : zrel st st.
  Proof. clear. split; [lia|split; [lia|]]. intros _. apply evolves_refl. Qed.
  Lemma zrel_trans o a b : zrel o a -> zrel a b -> zrel o b.
  Proof.
    intros (H1 & H2 & H3) (H4 & H5 & H6). split; [lia|split; [lia|]]. intros E.
    eapply evolves_trans; [apply H3|apply H6]; lia.
  Qed.

  Hypothesis step_ok : forall st op, zinv st -> okstep st op -> zinv (step st op) /\ zrel st (step st op).

  Fixpoint okrun (ops : list Op) st : Prop :=
    match ops with [] => True | op :: ops' => okstep st op /\ okrun ops' (step st op) end.
  Lemma exec_ok ops st : zinv st -> okrun ops st -> zinv (z_exec step ops st) /\ zrel st (z_exec step ops st).
  Proof.
    revert st; induction ops as [|op ops IH]; intros st Hi Hok; cbn.
    - split; [exact Hi|apply zrel_refl].
    - destruct Hok as [H1 H2]. destruct (step_ok st op Hi H1) as [Hi' Hr].
      destruct (IH _ Hi' H2) as [Hi'' Hr']. split; [exact Hi''|]. eapply zrel_trans; eassumption.
  Qed.

  Lemma begin_inv cur snap : zinv snap -> zrel snap cur -> zinv (z_begin cur snap).
  Proof.
    clear step_ok okstep step same_eq comparable_refl comparable_sym.
    intros (H1 & H2 & H3) (_ & Hn & _). split; [|split; [exact H2|exact H3]].
    split; cbn.
    - intros v x Hv. apply H1 in Hv. cbn in Hv. lia.
    - apply H1.
  Qed.

  Lemma all_pairs_In {A} (f : A -> A -> bool) (l : list A) : (forall x, f x x = true) -> (forall x y, f x y = f y x) ->
    all_pairs f l = true -> forall x y, In x l -> In y l -> f x y = true.
  Proof.
    intros Hr Hs. induction l as [|z l IH]; [intros _ x y []|]. cbn [all_pairs]. rewrite andb_true_iff, forallb_forall.
    intros [H1 H2] x y [<-|Hx] [<-|Hy]; auto. rewrite Hs. auto.
  Qed.

  (** What a commit does to the documents' values. *)
  Definition docs_outcome snap cur own st : Prop :=
    match zgen cur =? zgen snap, zgen own =? zgen snap with
    | true, true => forall d, merged (get (zrev snap) d) (get (zrev cur) d) (get (zrev own) d) (get (zrev st) d)
    | true, false => zrev st = zrev own
    | false, true => zrev st = zrev cur
    | false, false => False
    end.

  Lemma merge_ok snap cur ops st : zinv snap -> zinv cur -> zrel snap cur -> okrun ops (z_begin cur snap) ->
    let own := z_exec step ops (z_begin cur snap) in
    z_merge same comparable snap cur own = Some st ->
    zinv st /\ zrel cur st /\ docs_outcome snap cur own st.
  Proof.
    intros Is Ic Hr Hok own. pose proof (begin_inv _ _ Is Hr) as Ib0.
    destruct (exec_ok ops _ Ib0 Hok) as [Ib Rb]. fold own in Ib, Rb. clearbody own.
    unfold z_merge, docs_outcome. destruct Hr as (Hg & Hn & He). destruct Rb as (Hg' & Hn' & He'). cbn in Hg', Hn', He'.
    destruct (Z.eqb_spec (zgen cur) (zgen snap)) as [E1|E1], (Z.eqb_spec (zgen own) (zgen snap)) as [E2|E2].
    2:{ intros [= <-]. split; [exact Ib|split; [|reflexivity]]. split; [lia|split; [lia|]]. intros E; lia. }
    2:{ intros [= <-]. split; [exact Ic|split; [|reflexivity]]. apply zrel_refl. }
    2:{ discriminate. }
    unfold merge_parts. destruct (heap3 _ _ _) as [hp|] eqn:Hhp; [|discriminate].
    destruct (map3 _ (zfwd snap) _ _) as [fwd|] eqn:Hf; [|discriminate].
    destruct (map3 _ (zrev snap) _ _) as [rv|] eqn:Hv; [|discriminate].
    destruct (all_pairs comparable (keys fwd)) eqn:Hc; [|discriminate]. intros [= <-].
    assert (Hf' : forall v, merged (get (zfwd snap) v) (get (zfwd cur) v) (get (zfwd own) v) (get fwd v)).
    { intros v. eapply key3_merged; [|exact (map3_spec _ _ _ _ _ (fun _ => eq_refl) Hf v)]. intros x y. apply eqb_eq. }
    assert (Hv' : forall d, merged (get (zrev snap) d) (get (zrev cur) d) (get (zrev own) d) (get rv d)).
    { intros d. exact (key3_merged _ _ _ _ _ same_eq (map3_spec _ _ _ _ _ (fun _ => eq_refl) Hv d)). }
    specialize (He (eq_sym E1)). specialize (He' (eq_sym E2)).
    destruct Is as (Ws & Fs & Ns & _ & _ & Ts), Ic as (Wc & Fc & Nc & _ & Rc & Tc), Ib as (Wo & Fo & No & _ & Ro & To).
    assert (M1 : fits has (hp, fwd) rv) by (eapply (merged_fits has (zs snap) (zs cur) (zs own)) ; eassumption).
    assert (M2 : hwf (hp, fwd)) by (eapply (merged_hwf (zs snap) (zs cur) (zs own)); eassumption).
    assert (M3 : evolves (zs cur) (hp, fwd)) by (eapply (merged_evolves has (zs snap) (zs cur) (zs own)); eassumption).
    assert (M4 : forall v x, get fwd v = Some x ->
      (get (zfwd cur) v = Some x /\ next (zheap snap) <= x < next (zheap cur)) \/
      (get (zfwd own) v = Some x /\ next (zheap cur) <= x) \/
      (get (zfwd cur) v = Some x /\ get (zfwd own) v = Some x /\ get (zfwd snap) v = Some x /\ x < next (zheap snap))) by (eapply (fwd_from (zs snap) (zs cur) (zs own)); eassumption).
    assert (M5 : forall v x, get (zfwd snap) v = Some x -> fst (load hp x) = fst (load (zheap snap) x)) by (intros v x Hx; eapply (common has (zs snap) (zs cur) (zs own) hp); eassumption).
    split; [|split; [|exact Hv']].
    2:{ split; [cbn; lia|]. destruct (heap3_spec _ _ _ _ Hhp) as (En & _). split; [cbn; lia|]. intros _. exact M3. }
    split; [exact M2|]. split; [exact M1|]. split; [|split; [|split]]; cbn [zheap zfwd zrev znum zgen].
    - rewrite (merged_size _ _ _ _ Hv'), Ns, Nc, No. reflexivity.
    - intros v w. apply all_pairs_In; auto.
    - intros d r Hd. destruct (Hv' d) as [[_ E]|(_ & _ & E)]; rewrite E in Hd; eauto.
    - intros v x Hx.
      destruct (heap3_spec _ _ _ _ Hhp) as (_ & Hlb & Hla & _).
      destruct (M4 v x Hx) as [[H ?]|[[H ?]|(H & _ & H' & ?)]]; cbn [snd zs fst] in *.
      + rewrite Hla by lia. eauto.
      + rewrite Hlb by lia. eauto.
      + rewrite (M5 v x H'). eauto.
  Qed.

  (** A transaction that began with the latest version. *)
  Lemma all_pairs_ok {A} (f : A -> A -> bool) (l : list A) :
    (forall x y, In x l -> In y l -> f x y = true) -> all_pairs f l = true.
  Proof.
    clear. induction l as [|x l IH]; intros H; [reflexivity|]. cbn [all_pairs]. apply andb_true_iff. split.
    - apply forallb_forall. intros y Hy. apply H; [left; reflexivity|right; exact Hy].
    - apply IH. intros y z Hy Hz. apply H; right; assumption.
  Qed.
  Lemma merge_alone cur own : (forall v w, In v (keys (zfwd own)) -> In w (keys (zfwd own)) -> comparable v w = true) ->
    exists st, z_merge same comparable cur cur own = Some st.
  Proof.
    clear step_ok okstep step comparable_refl comparable_sym. intros Hc. unfold z_merge. rewrite Z.eqb_refl.
    destruct (zgen own =? zgen cur); [|eauto]. unfold merge_parts.
    assert (Hk : forall X (sm : X -> X -> bool) (x y : option X), eq_test sm -> key3 sm x x y = Some y).
    { intros X sm x y Hs. unfold key3. rewrite (proj2 (opt_same_eq sm Hs x x) eq_refl). reflexivity. }
    assert (H1 : exists hp, heap3 (zheap cur) (zheap cur) (zheap own) = Some hp).
    { unfold heap3. edestruct @map3_total as [c ->]; [|eauto]. intros l. cbn beta.
      destruct (next (zheap cur) <=? l); [discriminate|]. unfold obj3. rewrite (proj2 (obj_same_eq _ _) eq_refl). discriminate. }
    destruct H1 as [hp ->].
    destruct (map3_total (fun _ => key3 eqb) (zfwd cur) (zfwd cur) (zfwd own)) as [fwd Ef].
    { intros v. rewrite Hk; [discriminate|]. intros x y. apply eqb_eq. }
    destruct (map3_total (fun _ => key3 same) (zrev cur) (zrev cur) (zrev own)) as [rv Er].
    { intros v. rewrite Hk; [discriminate|exact same_eq]. }
    rewrite Ef, Er.
    assert (E : fwd = zfwd own).
    { apply smap_ext. intros v. pose proof (map3_spec _ _ _ _ _ (fun _ => eq_refl) Ef v) as H. cbn beta in H.
      rewrite Hk in H; [congruence|]. intros x y. apply eqb_eq. }
    rewrite E, all_pairs_ok by exact Hc. eauto.
  Qed.

  Lemma merge_alone_same cur own st : z_merge same comparable cur cur own = Some st ->
    zfwd st = zfwd own /\ zrev st = zrev own /\ znum st = znum own /\ zgen st = zgen own /\
    next (zheap own) <= next (zheap st) /\ forall l, load (zheap st) l = load (zheap own) l.
  Proof.
    clear step_ok okstep step comparable_refl comparable_sym. unfold z_merge. rewrite Z.eqb_refl.
    destruct (Z.eqb_spec (zgen own) (zgen cur)) as [Eg|Eg].
    2:{ intros [= <-]. repeat (split; [reflexivity || lia|]). reflexivity. }
    unfold merge_parts. destruct (heap3 _ _ _) as [hp|] eqn:Hhp; [|discriminate].
    destruct (map3 _ (zfwd cur) _ _) as [fwd|] eqn:Hf; [|discriminate].
    destruct (map3 _ (zrev cur) _ _) as [rv|] eqn:Hv; [|discriminate].
    destruct (all_pairs comparable (keys fwd)); [|discriminate]. intros [= <-]. cbn [zheap zfwd zrev znum zgen].
    destruct (heap3_spec _ _ _ _ Hhp) as (En & Hl1 & _ & Hl2).
    assert (Hm : forall A (x y m : A), merged x x y m -> m = y) by (intros A x y m [[_ H]|(H & _)]; congruence).
    split. { apply smap_ext. intros v. eapply Hm, key3_merged; [|exact (map3_spec _ _ _ _ _ (fun _ => eq_refl) Hf v)]. intros x y. apply eqb_eq. }
    split. { apply smap_ext. intros d. eapply Hm, key3_merged; [exact same_eq|exact (map3_spec _ _ _ _ _ (fun _ => eq_refl) Hv d)]. }
    split; [lia|]. split; [lia|]. split; [lia|]. intros l. destruct (Z.lt_ge_cases l (next (zheap cur))) as [Hlt|Hge].
    - specialize (Hl2 l Hlt Hlt). unfold obj3 in Hl2. rewrite (proj2 (obj_same_eq _ _) eq_refl) in Hl2. congruence.
    - apply Hl1, Hge.
  Qed.

  (** All committed versions are consistent, and later versions of each other. *)
  Definition vsinv vs : Prop :=
    exists cur rest, vs = cur :: rest /\ forall st, In st vs -> zinv st /\ zrel st cur.
  Lemma commit_ok vs i ops st : vsinv vs ->
    (forall cur snap, nth_error vs i = Some snap -> hd_error vs = Some cur -> okrun ops (z_begin cur snap)) ->
    commit same comparable step vs i ops = Some st ->
    exists cur snap, hd_error vs = Some cur /\ nth_error vs i = Some snap /\
      docs_outcome snap cur (z_exec step ops (z_begin cur snap)) st /\ vsinv (st :: vs).
  Proof.
    intros (cur & rest & -> & Hall) Hok. unfold commit. destruct (nth_error (cur :: rest) i) as [snap|] eqn:E; [|discriminate].
    intros Hm. exists cur, snap. pose proof (nth_error_In _ _ E) as Hin.
    destruct (Hall _ Hin) as [Is Rs]. destruct (Hall cur (or_introl eq_refl)) as [Ic _].
    destruct (merge_ok snap cur ops st Is Ic Rs (Hok cur snap eq_refl eq_refl) Hm) as (I & Rr & D).
    split; [reflexivity|]. split; [reflexivity|]. split; [exact D|]. exists st, (cur :: rest). split; [reflexivity|]. intros st' [<-|Hst].
    - split; [exact I|apply zrel_refl].
    - destruct (Hall _ Hst) as [I' R']. split; [exact I'|]. eapply zrel_trans; eassumption.
  Qed.
  Definition okschedule sch : Prop := forall sch1 i ops sch2, sch = sch1 ++ (i, ops) :: sch2 ->
    forall cur snap, nth_error (db_run same comparable step sch1) i = Some snap ->
      hd_error (db_run same comparable step sch1) = Some cur -> okrun ops (z_begin cur snap).
  Lemma db_run_snoc sch t : db_run same comparable step (sch ++ [t]) = db_step same comparable step (db_run same comparable step sch) t.
  Proof. unfold db_run. rewrite fold_left_app. reflexivity. Qed.
  Lemma new_inv : vsinv [z_new].
  Proof.
    clear step_ok okstep step same_eq comparable_refl comparable_sym.
    exists z_new, []. split; [reflexivity|]. intros st [<-|[]]. split; [|apply zrel_refl].
    split; [split; cbn; intros; discriminate|]. split; [intros v; cbn; reflexivity|].
    split; [reflexivity|]. split; [intros v w []|]. split; cbn; intros; discriminate.
  Qed.
  Lemma db_ok sch : okschedule sch -> vsinv (db_run same comparable step sch).
  Proof.
    induction sch as [|t sch IH] using rev_ind; intros Hok; [apply new_inv|].
    assert (Hok' : okschedule sch).
    { intros sch1 i ops sch2 E. apply (Hok sch1 i ops (sch2 ++ [t])). rewrite E, <- app_assoc. reflexivity. }
    specialize (IH Hok'). rewrite db_run_snoc. unfold db_step. destruct t as [i ops]; cbn [fst snd].
    destruct (commit _ _ _ _ i ops) as [st|] eqn:E; [|exact IH].
    edestruct (commit_ok _ i ops st IH) as (_ & _ & _ & _ & _ & H); [|exact E|exact H].
    intros cur snap H1 H2. apply (Hok sch i ops []) with (1 := eq_refl); assumption.
  Qed.
End Db.
