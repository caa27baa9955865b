(** * Lemmas: merging the data of text indexes *)
From Verif Require Import L_widcode L_setops L_baseindex L_textsys L_okapi L_zodb S_ztext Ord.

Lemma merged_map {A B} (f : A -> B) (g : B -> A) (o a b m : A) : g (f o) = o -> g (f a) = a ->
  merged (f o) (f a) (f b) (f m) -> g (f b) = b -> merged o a b (g (f m)).
Proof.
  intros Ho Ha [[E1 E2]|(E1 & E2 & E3)] Hb.
  - left. split; congruence.
  - right. splits; congruence.
Qed.
Lemma map3_conflict {K X} `{Ord K} (f : K -> option X -> option X -> option X -> option (option X)) (o a b : smap K X) k :
  f k (get o k) (get a k) (get b k) = None -> get o k <> None \/ get a k <> None \/ get b k <> None -> map3 f o a b = None.
Proof.
  intros Hf Hk. destruct (map3 f o a b) as [m|] eqn:E; [exfalso|reflexivity].
  destruct (map3_all _ _ _ _ _ E k) as [H1|(H1 & H2 & H3 & _)]; [congruence|]. destruct Hk as [Hk|[Hk|Hk]]; auto.
Qed.
(** nobody else changed anything *)
Lemma map3_alone {K X} `{Ord K} (f : K -> option X -> option X -> option X -> option (option X)) (o b : smap K X) :
  (forall k x y, f k x x y = Some y) -> map3 f o o b = Some b.
Proof.
  intros Hf. destruct (map3_total f o o b) as [m E]; [intros k; rewrite Hf; discriminate|]. rewrite E. f_equal. apply smap_ext. intros k.
  pose proof (map3_spec f o o b m (fun k => Hf k None None) E k) as H1. rewrite Hf in H1. congruence.
Qed.

Section Same.
  Context {V : Type}.
  Variable same : V -> V -> bool.
  Hypothesis same_eq : eq_test same.
  Lemma map_same_eq : eq_test (map_same same).
  Proof.
    intros m n. unfold map_same. rewrite forallb_forall. split.
    - intros H. apply smap_ext. intros k. destruct (mem k m) eqn:E1; [|destruct (mem k n) eqn:E2].
      + apply (opt_same_eq same same_eq), H, in_or_app. left. apply keys_mem, E1.
      + apply (opt_same_eq same same_eq), H, in_or_app. right. apply keys_mem, E2.
      + apply mem_false in E1, E2. congruence.
    - intros -> k _. apply (opt_same_eq same same_eq). reflexivity.
  Qed.
  Lemma post_same_eq : eq_test (post_same same).
  Proof.
    intros [t m] [t' m']. unfold post_same. cbn [p_dict p_map]. rewrite andb_true_iff, (map_same_eq m m'), Bool.eqb_true_iff.
    split; [intros [-> ->]; reflexivity|intros [= -> ->]; auto].
  Qed.
  Lemma post3_merged o a b m : post3 same o a b = Some m ->
    (a = o /\ m = b) \/ (a <> o /\ b = o /\ m = a) \/
    (a <> o /\ b <> o /\ exists p q r s, o = Some (mkPosting false p) /\ a = Some (mkPosting false q) /\ b = Some (mkPosting false r) /\
       m = Some (mkPosting false s) /\ is_empty s = false /\ forall d, merged (get p d) (get q d) (get r d) (get s d)).
  Proof.
    pose proof (opt_same_eq _ post_same_eq) as He. unfold post3. destruct (opt_same (post_same same) a o) eqn:E1.
    { intros [= <-]. left. split; [apply He, E1|reflexivity]. }
    assert (N1 : a <> o) by (intros E; apply He in E; congruence).
    destruct (opt_same (post_same same) b o) eqn:E2.
    { intros [= <-]. right; left. splits; [exact N1|apply He, E2|reflexivity]. }
    assert (N2 : b <> o) by (intros E; apply He in E; congruence). clear E1 E2.
    destruct o as [[to p]|], a as [[ta q]|], b as [[tb r]|]; try discriminate. cbn [p_dict p_map].
    destruct (to || ta || tb) eqn:E; [discriminate|]. apply orb_false_iff in E as [E ->]. apply orb_false_iff in E as [-> ->].
    destruct (map3 _ p q r) as [s|] eqn:Em; [|discriminate]. destruct (is_empty s) eqn:Es; [discriminate|]. intros [= <-].
    right; right. split; [exact N1|]. split; [exact N2|]. exists p, q, r, s. splits; auto.
    intros d. apply (key3_merged same); [exact same_eq|]. exact (map3_spec _ _ _ _ _ (fun _ => eq_refl) Em d).
  Qed.

  Variable rnd : V -> V.
  Variable fr : list Z -> smap Z V * V.
  (** documents for which storing the weights in IF BTrees loses nothing *)
  Variable sound : list Z -> Prop.
  Hypothesis rnd_inj : forall wids wids' w v v', sound wids -> sound wids' ->
    get (fst (fr wids)) w = Some v -> get (fst (fr wids')) w = Some v' -> rnd v = rnd v' -> v = v'.
  Definition all_sound (E : smap Z (list Z)) : Prop := forall d wids, get E d = Some wids -> sound wids.
  Definition dec (c : str) : list Z := match decode c with Ok l => l | Raise _ => [] end.

  Lemma targets_sound E1 E2 w d v v' : all_sound E1 -> all_sound E2 ->
    targets fr E1 w d = Some v -> targets fr E2 w d = Some v' -> rnd v = rnd v' -> v = v'.
  Proof.
    unfold targets. intros S1 S2. destruct (get E1 d) as [l|] eqn:H1; [|discriminate]. destruct (get E2 d) as [l'|] eqn:H2; [|discriminate].
    intros T1 T2 Hr. exact (rnd_inj l l' w v v' (S1 _ _ H1) (S2 _ _ H2) T1 T2 Hr).
  Qed.

  Section Merge.
    Variables o a b m : bindex V.
    Variables Eo Ea Eb : smap Z (list Z).
    Variable tot : Z.
    Hypothesis Io : ixinv rnd fr o Eo.
    Hypothesis Ia : ixinv rnd fr a Ea.
    Hypothesis Ib : ixinv rnd fr b Eb.
    Hypothesis So : all_sound Eo.
    Hypothesis Sa : all_sound Ea.
    Hypothesis Sb : all_sound Eb.
    Hypothesis Hm : ix3 same tot o a b = Some m.

    Definition merged_E : smap Z (list Z) := mmap (fun _ => dec) (docwords m).
    Lemma dec_words ix E d : ixinv rnd fr ix E -> option_map dec (get (docwords ix) d) = get E d.
    Proof.
      clear. intros H. rewrite (iv_words _ _ _ _ H). destruct (get E d) as [l|] eqn:Ed; [|reflexivity]. cbn [option_map]. f_equal.
      unfold dec, codes. rewrite decode_codes; [reflexivity|]. exact (iv_range _ _ _ _ H _ _ Ed).
    Qed.
    Lemma ix3_inv : totaldoclen m = tot /\ wordCount m = wordCount a + wordCount b - wordCount o /\
      documentCount m = documentCount a + documentCount b - documentCount o /\
      (forall w, post3 same (get (wordinfo o) w) (get (wordinfo a) w) (get (wordinfo b) w) = Some (get (wordinfo m) w)) /\
      (forall d, merged (get (docweight o) d) (get (docweight a) d) (get (docweight b) d) (get (docweight m) d)) /\
      (forall d, merged (get (docwords o) d) (get (docwords a) d) (get (docwords b) d) (get (docwords m) d)).
    Proof.
      clear rnd_inj. revert Hm. unfold ix3. destruct (map3 _ (wordinfo o) _ _) as [wi|] eqn:E1; [|discriminate].
      destruct (map3 _ (docweight o) _ _) as [dw|] eqn:E2; [|discriminate].
      destruct (map3 _ (docwords o) _ _) as [ds|] eqn:E3; [|discriminate]. intros [= <-]. cbn.
      split; [reflexivity|]. split; [reflexivity|]. split; [reflexivity|]. split; [|split].
      - apply (map3_spec _ _ _ _ _ (fun _ => eq_refl) E1).
      - intros d. apply (key3_merged same); [exact same_eq|]. exact (map3_spec _ _ _ _ _ (fun _ => eq_refl) E2 d).
      - intros d. apply (key3_merged eqb); [intros x y; apply eqb_eq|]. exact (map3_spec _ _ _ _ _ (fun _ => eq_refl) E3 d).
    Qed.
    Lemma merged_docs d : merged (get Eo d) (get Ea d) (get Eb d) (get merged_E d).
    Proof.
      destruct ix3_inv as (_ & _ & _ & _ & _ & H). specialize (H d). unfold merged_E. rewrite get_mmap.
      rewrite <- (dec_words _ _ d Io), <- (dec_words _ _ d Ia), <- (dec_words _ _ d Ib).
      assert (Hm' : match get (docwords m) d with Some v => Some (dec v) | None => None end = option_map dec (get (docwords m) d))
        by (destruct (get (docwords m) d); reflexivity).
      rewrite Hm'. destruct H as [[E1 E2]|(E1 & E2 & E3)].
      - left. rewrite E1, E2. auto.
      - right. rewrite E2, E3. splits; auto. intros E. apply E1.
        rewrite (dec_words _ _ d Io), (dec_words _ _ d Ia) in E. rewrite (iv_words _ _ _ _ Io), (iv_words _ _ _ _ Ia), E. reflexivity.
    Qed.
    Lemma targets_eq (E1 E2 : smap Z (list Z)) w d : get E1 d = get E2 d -> targets fr E1 w d = targets fr E2 w d.
    Proof. clear. unfold targets. intros ->. reflexivity. Qed.
    Lemma merged_targets w d : let T E := targets fr E w d in
      (get Ea d = get Eo d /\ T merged_E = T Eb) \/ (get Eb d = get Eo d /\ T merged_E = T Ea).
    Proof.
      cbv zeta. destruct (merged_docs d) as [[E1 E2]|(_ & E1 & E2)]; [left|right]; (split; [exact E1|apply targets_eq, E2]).
    Qed.
    Definition fits_posting (x : option (posting V)) (E : smap Z (list Z)) (w : Z) : Prop :=
      match x with
      | None => forall d, targets fr E w d = None
      | Some p => (exists d, targets fr E w d <> None) /\ forall d, get (p_map p) d = option_map (stored rnd p) (targets fr E w d)
      end.
    Lemma fits_ext x (E E' : smap Z (list Z)) w : (forall d, targets fr E' w d = targets fr E w d) -> fits_posting x E w -> fits_posting x E' w.
    Proof.
      clear. intros H. destruct x as [p|]; cbn [fits_posting].
      - intros [[d Hd] Hp]. split; [exists d; rewrite H; exact Hd|]. intros d'. rewrite H. apply Hp.
      - intros Hp d. rewrite H. apply Hp.
    Qed.
    (** one side left the posting alone *)
    Lemma half_posting x (E1 E2 E3 Em : smap Z (list Z)) w : all_sound E1 -> all_sound E2 ->
      (forall d, (get E2 d = get E1 d /\ targets fr Em w d = targets fr E3 w d) \/
                 (get E3 d = get E1 d /\ targets fr Em w d = targets fr E2 w d)) ->
      fits_posting x E1 w -> fits_posting x E2 w -> forall d, targets fr Em w d = targets fr E3 w d.
    Proof.
      clear - rnd_inj. intros S1 S2 H Hx Hy d. destruct (H d) as [[_ E]|[E3d ->]]; [exact E|].
      rewrite (targets_eq E3 E1 w d E3d). destruct x as [p|].
      - destruct Hx as [_ Hx], Hy as [_ Hy]. specialize (Hx d). specialize (Hy d). rewrite Hy in Hx.
        destruct (targets fr E2 w d) as [v|] eqn:T2, (targets fr E1 w d) as [v'|] eqn:T1; cbn [option_map] in Hx; try discriminate; [|reflexivity].
        injection Hx as Hx. f_equal. unfold stored in Hx. destruct (p_dict p); [exact Hx|]. exact (targets_sound _ _ _ _ _ _ S2 S1 T2 T1 Hx).
      - cbn in Hx, Hy. rewrite Hx, Hy. reflexivity.
    Qed.
    Lemma merged_posting w : fits_posting (get (wordinfo m) w) merged_E w.
    Proof.
      destruct ix3_inv as (_ & _ & _ & Hw & _). specialize (Hw w).
      pose proof (proj1 (iv_info _ _ _ _ Io) w) as Fo. pose proof (proj1 (iv_info _ _ _ _ Ia) w) as Fa. pose proof (proj1 (iv_info _ _ _ _ Ib) w) as Fb.
      change (fits_posting (get (wordinfo o) w) Eo w) in Fo. change (fits_posting (get (wordinfo a) w) Ea w) in Fa. change (fits_posting (get (wordinfo b) w) Eb w) in Fb.
      apply post3_merged in Hw as [[E1 E2]|[(_ & E1 & E2)|(_ & _ & p & q & r & s & E1 & E2 & E3 & E4 & Hs & Hd)]].
      - rewrite E2. refine (fits_ext _ _ _ _ _ Fb). rewrite E1 in Fa. apply (half_posting (get (wordinfo o) w) Eo Ea Eb merged_E w So Sa); [|exact Fo|exact Fa].
        intros d. apply merged_targets.
      - rewrite E2. refine (fits_ext _ _ _ _ _ Fa). rewrite E1 in Fb. apply (half_posting (get (wordinfo o) w) Eo Eb Ea merged_E w So Sb); [|exact Fo|exact Fb].
        intros d. destruct (merged_targets w d); auto.
      - rewrite E4. rewrite E1 in Fo. rewrite E2 in Fa. rewrite E3 in Fb. destruct Fo as [_ Fo], Fa as [_ Fa], Fb as [_ Fb]. cbn [p_map] in *.
        assert (Hx : forall d, get s d = option_map (stored rnd (mkPosting false s)) (targets fr merged_E w d)).
        { intros d. destruct (merged_proj (fun x => x) _ _ _ _ (Hd d)) as (_ & P1 & P2). unfold stored in *. cbn [p_dict] in *.
          destruct (merged_targets w d) as [[E ->]|[E ->]].
          - rewrite <- Fb. apply P1. rewrite Fo, Fa. rewrite (targets_eq Ea Eo w d E). reflexivity.
          - rewrite <- Fa. apply P2. rewrite Fo, Fb. rewrite (targets_eq Eb Eo w d E). reflexivity. }
        split; [|exact Hx]. apply is_empty_false in Hs as (d & v & Ed). exists d. rewrite Hx in Ed. destruct (targets fr merged_E w d); discriminate.
    Qed.
    Lemma ix3_ok : ixinv rnd fr m merged_E.
    Proof.
      destruct ix3_inv as (_ & Hwc & Hdc & Hw & Hdw & Hds). constructor.
      - intros d wids Hd. destruct (merged_docs d) as [[_ E]|(_ & _ & E)]; rewrite E in Hd.
        + exact (iv_range _ _ _ _ Ib _ _ Hd).
        + exact (iv_range _ _ _ _ Ia _ _ Hd).
      - intros d. destruct (merged_docs d) as [[E1 ->]|(E1 & E2 & ->)].
        + rewrite <- (iv_words _ _ _ _ Ib). destruct (merged_proj (fun x => x) _ _ _ _ (Hds d)) as (_ & P & _). apply P.
          rewrite (iv_words _ _ _ _ Ia), (iv_words _ _ _ _ Io), E1. reflexivity.
        + rewrite <- (iv_words _ _ _ _ Ia). destruct (merged_proj (fun x => x) _ _ _ _ (Hds d)) as (_ & _ & P). apply P.
          rewrite (iv_words _ _ _ _ Ib), (iv_words _ _ _ _ Io), E2. reflexivity.
      - intros d. destruct (merged_docs d) as [[E1 ->]|(E1 & E2 & ->)].
        + rewrite <- (iv_weight _ _ _ _ Ib). destruct (merged_proj (fun x => x) _ _ _ _ (Hdw d)) as (_ & P & _). apply P.
          rewrite (iv_weight _ _ _ _ Ia), (iv_weight _ _ _ _ Io), E1. reflexivity.
        + rewrite <- (iv_weight _ _ _ _ Ia). destruct (merged_proj (fun x => x) _ _ _ _ (Hdw d)) as (_ & _ & P). apply P.
          rewrite (iv_weight _ _ _ _ Ib), (iv_weight _ _ _ _ Io), E2. reflexivity.
      - split; [exact merged_posting|]. rewrite Hwc, (proj2 (iv_info _ _ _ _ Ia)), (proj2 (iv_info _ _ _ _ Ib)), (proj2 (iv_info _ _ _ _ Io)).
        pose (U := fun x : smap Z (posting V) => mmap (fun _ _ => tt) x).
        assert (HU : forall x, Zsize x = Zsize (U x)) by (intros x; unfold Zsize, U; rewrite size_mmap; reflexivity).
        rewrite !HU. symmetry. apply merged_size. intros w. unfold U. rewrite !get_mmap. specialize (Hw w).
        apply post3_merged in Hw as [[E1 E2]|[(_ & E1 & E2)|(_ & _ & p & q & r & s & E1 & E2 & E3 & E4 & _)]].
        + left. rewrite E1, E2. auto.
        + rewrite E1, E2. destruct (get (wordinfo a) w), (get (wordinfo o) w); [left|right|right|left]; splits; congruence.
        + left. rewrite E1, E2, E3, E4. auto.
      - rewrite Hdc, (iv_count _ _ _ _ Io), (iv_count _ _ _ _ Ia), (iv_count _ _ _ _ Ib). symmetry. apply merged_size. apply merged_docs.
    Qed.
    Lemma merged_sound : all_sound merged_E.
    Proof. intros d wids Hd. destruct (merged_docs d) as [[_ E]|(_ & _ & E)]; rewrite E in Hd; eauto. Qed.
  End Merge.
End Same.
