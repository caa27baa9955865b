(** * Lemmas: an index up to the digits that rounding drops

    A dict keeps weights as they were computed and an IF BTree rounds them.  After a merge
    the dict of a word may hold, for a document whose text was changed by the other side, the
    weight in the old text if both weights round to the same number. *)
From Verif Require Import L_widcode L_lexicon L_setops L_baseindex L_textsys L_zodb L_zbase S_ztext S_textapi Ord.

Section Round.
  Context {V : Type}.
  Variable rnd : V -> V.
  Definition round_posting (p : posting V) : posting V := if p_dict p then mkPosting true (mmap (fun _ => rnd) (p_map p)) else p.
  Definition rounded (ix : bindex V) : bindex V :=
    mkIx (mmap (fun _ => round_posting) (wordinfo ix)) (docweight ix) (docwords ix) (wordCount ix) (documentCount ix) (totaldoclen ix).
  Lemma rounded_new : rounded ix_new = ix_new.
  Proof. unfold rounded, ix_new. cbn [wordinfo docweight docwords wordCount documentCount totaldoclen]. f_equal. apply smap_ext. intros w. rewrite get_mmap, get_empty. reflexivity. Qed.
  Lemma get_round (wi : smap Z (posting V)) w : get (mmap (fun _ => round_posting) wi) w = option_map round_posting (get wi w).
  Proof. rewrite get_mmap. destruct (get wi w); reflexivity. Qed.

  (** ** Merging *)
  Section Merge.
    Variable same : V -> V -> bool.
    Hypothesis same_eq : eq_test same.
    Lemma post3_first (x y : option (posting V)) : post3 same x x y = Some y.
    Proof. unfold post3. rewrite (proj2 (opt_same_eq _ (post_same_eq same same_eq) x x) eq_refl). reflexivity. Qed.
    Lemma post3_second (x y : option (posting V)) : post3 same x y x = Some y.
    Proof.
      pose proof (opt_same_eq _ (post_same_eq same same_eq)) as He. unfold post3. destruct (opt_same _ y x) eqn:E; [apply He in E; congruence|].
      rewrite (proj2 (He x x) eq_refl). reflexivity.
    Qed.
    Lemma post3_round o a b m : post3 same o a b = Some m ->
      post3 same (option_map round_posting o) (option_map round_posting a) (option_map round_posting b) = Some (option_map round_posting m).
    Proof.
      intros E. pose proof E as E'. apply (post3_merged same same_eq) in E' as [[-> ->]|[(_ & -> & ->)|(_ & _ & p & q & r & s & -> & -> & -> & -> & _)]].
      - apply post3_first.
      - apply post3_second.
      - exact E.
    Qed.
    Lemma map3_intro {X} (f : Z -> option X -> option X -> option X -> option (option X)) (o a b m : smap Z X) : (forall k, f k None None None = Some None) ->
      (forall k, f k (get o k) (get a k) (get b k) = Some (get m k)) -> map3 f o a b = Some m.
    Proof.
      intros H0 H. destruct (map3_total f o a b) as [m' E]; [intros k; rewrite H; discriminate|]. rewrite E. f_equal. apply smap_ext. intros k.
      pose proof (map3_spec f o a b m' H0 E k) as H1. rewrite H in H1. congruence.
    Qed.
    Lemma ix3_round tot o a b m : ix3 same tot o a b = Some m -> ix3 same tot (rounded o) (rounded a) (rounded b) = Some (rounded m).
    Proof.
      unfold ix3. cbn [wordinfo docweight docwords rounded]. destruct (map3 _ (wordinfo o) _ _) as [wi|] eqn:E1; [|discriminate].
      rewrite (map3_intro (fun _ => post3 same) _ _ _ (mmap (fun _ => round_posting) wi) (fun _ => eq_refl)).
      2:{ intros k. rewrite !get_round. apply post3_round. exact (map3_spec _ _ _ _ _ (fun _ => eq_refl) E1 k). }
      destruct (map3 _ (docweight o) _ _) as [dw|]; [|discriminate]. destruct (map3 _ (docwords o) _ _) as [ds|]; [|discriminate]. intros [= <-]. reflexivity.
    Qed.
  End Merge.

  (** ** The weights that others see *)
  Variable fr : list Z -> smap Z V * V.
  Definition fr_round (wids : list Z) : smap Z V * V := (mmap (fun _ => rnd) (fst (fr wids)), rnd (snd (fr wids))).
  Local Notation seen := (fun v : V => v).
  Lemma round_keys : (forall wids w, mem w (fst (fr wids)) = true <-> In w wids) -> forall wids w, mem w (fst (fr_round wids)) = true <-> In w wids.
  Proof. intros H wids w. rewrite <- H. unfold fr_round, mem. cbn [fst]. rewrite get_mmap. destruct (get (fst (fr wids)) w); reflexivity. Qed.
  Lemma round_targets E w d : targets fr_round E w d = option_map rnd (targets fr E w d).
  Proof. unfold targets, fr_round. destruct (get E d) as [wids|]; [|reflexivity]. cbn [fst]. rewrite get_mmap. destruct (get (fst (fr wids)) w); reflexivity. Qed.
  Lemma option_id {A} (x : option A) : option_map (fun v => v) x = x.
  Proof. destruct x; reflexivity. Qed.
  Lemma stored_seen (p : posting V) (x : option V) : option_map (stored seen p) x = x.
  Proof. unfold stored. destruct x, (p_dict p); reflexivity. Qed.
  (** what is in the map of a rounded posting *)
  Lemma round_get p d : get (p_map (round_posting p)) d = if p_dict p then option_map rnd (get (p_map p) d) else get (p_map p) d.
  Proof. unfold round_posting. destruct (p_dict p); [|reflexivity]. cbn [p_map]. rewrite get_mmap. destruct (get (p_map p) d); reflexivity. Qed.

  Lemma lax_of_strict ix E : ixinv rnd fr ix E -> ixinv seen fr_round (rounded ix) E.
  Proof.
    intros [H1 H2 H3 [H4 H4'] H5]. constructor; cbn [rounded docwords docweight documentCount]; try assumption.
    split; cbn [rounded wordinfo wordCount].
    - intros w. rewrite get_round. specialize (H4 w). destruct (get (wordinfo ix) w) as [p|]; cbn [option_map].
      + destruct H4 as [[d Hd] H4]. split.
        * exists d. rewrite round_targets. destruct (targets fr E w d); [discriminate|exact Hd].
        * intros d'. rewrite stored_seen, round_get, H4, round_targets. unfold stored. destruct (p_dict p), (targets fr E w d'); reflexivity.
      + intros d. rewrite round_targets, H4. reflexivity.
    - rewrite H4'. unfold Zsize. rewrite size_mmap. reflexivity.
  Qed.
  Definition exact_posting (E : smap Z (list Z)) (w : Z) (p : posting V) : posting V :=
    if p_dict p then mkPosting true (mmap (fun d v => match targets fr E w d with Some x => x | None => v end) (p_map p)) else p.
  Lemma strict_of_lax ix E : ixinv seen fr_round (rounded ix) E -> exists ix0, ixinv rnd fr ix0 E /\ rounded ix0 = rounded ix.
  Proof.
    intros [H1 H2 H3 [H4 H4'] H5]. cbn [rounded docwords docweight documentCount wordinfo wordCount] in *.
    assert (Hp : forall w p, get (wordinfo ix) w = Some p -> (exists d, targets fr E w d <> None) /\
      forall d, (if p_dict p then option_map rnd (get (p_map p) d) else get (p_map p) d) = option_map rnd (targets fr E w d)).
    { intros w p Ep. specialize (H4 w). rewrite get_round, Ep in H4. cbn [option_map] in H4. destruct H4 as [[d Hd] H4]. split.
      - exists d. rewrite round_targets in Hd. destruct (targets fr E w d); [discriminate|exact Hd].
      - intros d'. rewrite <- round_get, H4, stored_seen, round_targets. reflexivity. }
    exists (mkIx (mmap (exact_posting E) (wordinfo ix)) (docweight ix) (docwords ix) (wordCount ix) (documentCount ix) (totaldoclen ix)). split.
    - constructor; cbn [docwords docweight documentCount]; try assumption.
      split; cbn [wordinfo wordCount].
      + intros w. rewrite get_mmap. destruct (get (wordinfo ix) w) as [p|] eqn:Ep.
        * destruct (Hp w p Ep) as [He Hd]. split; [exact He|]. intros d. specialize (Hd d). unfold exact_posting, stored.
          destruct (p_dict p) eqn:Et; cbn [p_map p_dict]; [|rewrite Et; exact Hd]. rewrite get_mmap.
          destruct (get (p_map p) d), (targets fr E w d); cbn in Hd |- *; congruence.
        * specialize (H4 w). rewrite get_round, Ep in H4. cbn [option_map] in H4. intros d. specialize (H4 d). rewrite round_targets in H4.
          destruct (targets fr E w d); [discriminate|reflexivity].
      + rewrite H4'. unfold Zsize. rewrite !size_mmap. reflexivity.
    - unfold rounded. cbn [wordinfo docweight docwords wordCount documentCount totaldoclen]. f_equal. apply smap_ext. intros w. rewrite !get_round, get_mmap.
      destruct (get (wordinfo ix) w) as [p|] eqn:Ep; [|reflexivity]. cbn [option_map]. f_equal. destruct (Hp w p Ep) as [_ Hd].
      unfold exact_posting, round_posting. destruct (p_dict p) eqn:Et; cbn [p_dict p_map]; [|rewrite Et; reflexivity]. f_equal. apply smap_ext. intros d. specialize (Hd d).
      rewrite !get_mmap. destruct (get (p_map p) d), (targets fr E w d); cbn in Hd |- *; congruence.
  Qed.

  (** ** Calls *)
  Definition alike (s s0 : sys V) : Prop := slx s = slx s0 /\ rounded (six s) = rounded (six s0).
  Lemma alike_ix (ix ix0 : bindex V) : rounded ix = rounded ix0 -> docwords ix = docwords ix0 /\ docweight ix = docweight ix0 /\
    wordCount ix = wordCount ix0 /\ documentCount ix = documentCount ix0 /\ totaldoclen ix = totaldoclen ix0 /\
    forall w, option_map round_posting (get (wordinfo ix) w) = option_map round_posting (get (wordinfo ix0) w).
  Proof.
    intros H. pose proof (f_equal wordinfo H) as H1. injection H as _ H2 H3 H4 H5 H6. cbn [rounded wordinfo] in H1.
    split; [assumption|]. split; [assumption|]. split; [assumption|]. split; [assumption|]. split; [assumption|]. intros w. rewrite <- !get_round, H1. reflexivity.
  Qed.

  Lemma alike_mk (ix ix0 : bindex V) : docwords ix = docwords ix0 -> docweight ix = docweight ix0 -> wordCount ix = wordCount ix0 ->
    documentCount ix = documentCount ix0 -> totaldoclen ix = totaldoclen ix0 ->
    (forall w, option_map round_posting (get (wordinfo ix) w) = option_map round_posting (get (wordinfo ix0) w)) -> rounded ix = rounded ix0.
  Proof. intros H1 H2 H3 H4 H5 H6. unfold rounded. rewrite H1, H2, H3, H4, H5. f_equal. apply smap_ext. intros w. rewrite !get_round. apply H6. Qed.
  Lemma posting_alike p p0 : round_posting p = round_posting p0 -> p_dict p = p_dict p0 /\ (p_dict p = false -> p = p0) /\
    forall d, option_map rnd (get (p_map p) d) = option_map rnd (get (p_map p0) d).
  Proof.
    intros H. assert (Ht : p_dict p = p_dict p0).
    { pose proof (f_equal p_dict H) as H'. unfold round_posting in H'. destruct (p_dict p) eqn:E, (p_dict p0) eqn:E0; cbn [p_dict] in H'; congruence. }
    split; [exact Ht|]. split.
    - intros E. unfold round_posting in H. rewrite <- Ht, E in H. exact H.
    - intros d. pose proof (f_equal (fun q => get (p_map q) d) H) as H'. cbv beta in H'. rewrite !round_get, <- Ht in H'. destruct (p_dict p); [exact H'|congruence].
  Qed.
  Lemma posting_mk p p0 : p_dict p = p_dict p0 -> (p_dict p = false -> p = p0) ->
    (forall d, option_map rnd (get (p_map p) d) = option_map rnd (get (p_map p0) d)) -> round_posting p = round_posting p0.
  Proof.
    intros H1 H2 H3. unfold round_posting. rewrite <- H1. destruct (p_dict p); [|auto]. f_equal. apply smap_ext. intros d. rewrite !get_mmap.
    specialize (H3 d). destruct (get (p_map p) d), (get (p_map p0) d); cbn in H3; congruence.
  Qed.
  Lemma posting_keys p p0 : round_posting p = round_posting p0 -> forall d, mem d (p_map p) = mem d (p_map p0).
  Proof. intros H d. pose proof (proj2 (proj2 (posting_alike _ _ H)) d) as Hd. unfold mem. destruct (get (p_map p) d), (get (p_map p0) d); cbn in Hd |- *; congruence. Qed.
  Lemma posting_size p p0 : round_posting p = round_posting p0 -> Zsize (p_map p) = Zsize (p_map p0).
  Proof.
    intros H. assert (E : mmap (fun _ => rnd) (p_map p) = mmap (fun _ => rnd) (p_map p0)).
    { apply smap_ext. intros d. rewrite !get_mmap. pose proof (proj2 (proj2 (posting_alike _ _ H)) d) as Hd. destruct (get (p_map p) d), (get (p_map p0) d); cbn in Hd |- *; congruence. }
    pose proof (f_equal size E) as E'. rewrite !size_mmap in E'. unfold Zsize. rewrite E'. reflexivity.
  Qed.
  Lemma convert_alike p p0 : round_posting p = round_posting p0 -> round_posting (convert rnd p) = round_posting (convert rnd p0).
  Proof.
    intros H. pose proof (posting_alike _ _ H) as (H1 & _ & H3). unfold convert. rewrite <- H1, <- (posting_size _ _ H).
    destruct (p_dict p && _)%bool; [|exact H]. f_equal. f_equal. apply smap_ext. intros d. rewrite !get_mmap. specialize (H3 d).
    destruct (get (p_map p) d), (get (p_map p0) d); cbn in H3; congruence.
  Qed.
  Lemma set_alike p p0 d f : round_posting p = round_posting p0 -> round_posting (p_set rnd d f p) = round_posting (p_set rnd d f p0).
  Proof.
    intros H. pose proof (posting_alike _ _ H) as (H1 & H2 & H3). apply posting_mk; cbn [p_set p_dict p_map].
    - exact H1.
    - intros E. rewrite (H2 E). reflexivity.
    - intros d'. rewrite !get_put, <- H1. destruct (eqb d' d); [reflexivity|apply H3].
  Qed.
  Definition alike_info (wi wi0 : smap Z (posting V)) : Prop := forall w, option_map round_posting (get wi w) = option_map round_posting (get wi0 w).
  Lemma put_alike wi wi0 w p p0 : alike_info wi wi0 -> round_posting p = round_posting p0 -> alike_info (put w p wi) (put w p0 wi0).
  Proof. intros H Hp w'. rewrite !get_put. destruct (eqb w' w); [cbn; congruence|apply H]. Qed.
  Lemma del_alike wi wi0 w : alike_info wi wi0 -> alike_info (del w wi) (del w wi0).
  Proof. intros H w'. rewrite !get_del. destruct (eqb w' w); [reflexivity|apply H]. Qed.

  Definition sim {A} (m : sx (sys V) A) : Prop := forall s s0, alike s s0 -> snd (m s) = snd (m s0) /\ alike (fst (m s)) (fst (m s0)).
  Lemma sim_bind {A B} (m : sx (sys V) A) (f : A -> sx (sys V) B) : sim m -> (forall a, sim (f a)) -> sim (sbind m f).
  Proof.
    intros Hm Hf s s0 H. destruct (Hm s s0 H) as [E H']. unfold sbind. destruct (m s) as [s1 r], (m s0) as [s2 r2]. cbn [fst snd] in *. subst r2.
    destruct r as [a|e]; [apply Hf, H'|]. split; [reflexivity|exact H'].
  Qed.
  Lemma sim_ret {A} (a : A) : sim (sret a).
  Proof. intros s s0 H. split; [reflexivity|exact H]. Qed.
  Lemma sim_lift {A} (f : sys V -> res A) : (forall s s0, alike s s0 -> f s = f s0) -> sim (slift f).
  Proof. intros Hf s s0 H. split; [apply Hf, H|exact H]. Qed.
  Lemma sim_on f : (forall ix ix0, rounded ix = rounded ix0 -> rounded (f ix) = rounded (f ix0)) -> sim (on_ix (V := V) f).
  Proof. intros Hf s s0 [H1 H2]. split; [reflexivity|]. split; [exact H1|apply Hf, H2]. Qed.
  Lemma sim_if {A} (b : bool) (m m' : sx (sys V) A) : sim m -> sim m' -> sim (if b then m else m').
  Proof. destruct b; auto. Qed.
  Lemma sim_test {A} (t : sys V -> bool) (m m' : sx (sys V) A) : (forall s s0, alike s s0 -> t s = t s0) -> sim m -> sim m' -> sim (fun s => if t s then m s else m' s).
  Proof. intros Ht H1 H2 s s0 H. rewrite (Ht s s0 H). destruct (t s0); auto. Qed.
  Lemma sim_iter {A} (f : A -> sx (sys V) unit) l : (forall a, sim (f a)) -> sim (siter f l).
  Proof. intros H. induction l as [|x l IH]; cbn [siter]; [apply sim_ret|]. apply sim_bind; [apply H|intros _; exact IH]. Qed.
  Lemma alike_has s s0 d : alike s s0 -> has_doc (six s) d = has_doc (six s0) d.
  Proof. intros [_ H]. unfold has_doc. rewrite (proj1 (alike_ix _ _ H)). reflexivity. Qed.
  Lemma alike_words s s0 d : alike s s0 -> get_words (six s) d = get_words (six s0) d.
  Proof. intros [_ H]. unfold get_words. rewrite (proj1 (alike_ix _ _ H)). reflexivity. Qed.

  Lemma sim_del w d : sim (del_wordinfo (V := V) w d).
  Proof.
    intros s s0 [Hl H]. pose proof (alike_ix _ _ H) as (E1 & E2 & E3 & E4 & E5 & E6). unfold del_wordinfo, sbind, slift, item.
    pose proof (E6 w) as Ew. destruct (get (wordinfo (six s)) w) as [p|], (get (wordinfo (six s0)) w) as [p0|]; cbn [option_map] in Ew; try discriminate.
    2:{ split; [reflexivity|split; assumption]. }
    injection Ew as Ew. pose proof (posting_alike _ _ Ew) as (P1 & P2 & P3). pose proof (P3 d) as Pd.
    destruct (get (p_map p) d) as [v|] eqn:G, (get (p_map p0) d) as [v0|] eqn:G0; cbn [option_map] in Pd; try discriminate.
    2:{ split; [reflexivity|split; assumption]. }
    cbn [p_map p_dict]. assert (Hr : round_posting (mkPosting (p_dict p) (del d (p_map p))) = round_posting (mkPosting (p_dict p0) (del d (p_map p0)))).
    { apply posting_mk; cbn [p_dict p_map]; [exact P1|intros E; rewrite (P2 E); reflexivity|]. intros d'. rewrite !get_del. destruct (eqb d' d); [reflexivity|apply P3]. }
    assert (He : is_empty (del d (p_map p)) = is_empty (del d (p_map p0))).
    { pose proof (posting_keys _ _ Hr) as Hk. cbn [p_map] in Hk. apply bool_eq_iff. rewrite !is_empty_get. unfold mem in Hk.
      split; intros Hn k; specialize (Hn k); specialize (Hk k); rewrite Hn in Hk; [destruct (get (del d (p_map p0)) k)|destruct (get (del d (p_map p)) k)]; cbn in Hk; congruence. }
    rewrite <- He. destruct (is_empty (del d (p_map p))); (split; [reflexivity|]); (split; [exact Hl|]);
      apply alike_mk; cbn [on_ix smod fst six change_wordCount set_wordinfo docwords docweight wordCount documentCount totaldoclen wordinfo]; try congruence.
    - apply del_alike. exact E6.
    - apply put_alike; [exact E6|exact Hr].
  Qed.
  Lemma add_alike w x d ix ix0 : rounded ix = rounded ix0 -> rounded (add_wordinfo rnd w x d ix) = rounded (add_wordinfo rnd w x d ix0).
  Proof.
    intros H. pose proof (alike_ix _ _ H) as (E1 & E2 & E3 & E4 & E5 & E6). unfold add_wordinfo. pose proof (E6 w) as Ew.
    destruct (get (wordinfo ix) w) as [p|], (get (wordinfo ix0) w) as [p0|]; cbn [option_map] in Ew; try discriminate;
      apply alike_mk; cbn [change_wordCount set_wordinfo docwords docweight wordCount documentCount totaldoclen wordinfo]; try congruence;
      apply put_alike; try exact E6; try reflexivity. injection Ew as Ew. apply set_alike, convert_alike, Ew.
  Qed.
  Lemma mass_alike d l : forall wi wi0 n, alike_info wi wi0 ->
    alike_info (fst (fold_left (mass_step rnd d) l (wi, n))) (fst (fold_left (mass_step rnd d) l (wi0, n))) /\
    snd (fold_left (mass_step rnd d) l (wi, n)) = snd (fold_left (mass_step rnd d) l (wi0, n)).
  Proof.
    induction l as [|[w x] l IH]; intros wi wi0 n H; [split; [exact H|reflexivity]|]. cbn [fold_left mass_step fst snd].
    pose proof (H w) as Ew. destruct (get wi w) as [p|], (get wi0 w) as [p0|]; cbn [option_map] in Ew; try discriminate; apply IH; apply put_alike; try exact H; try reflexivity.
    injection Ew as Ew. apply set_alike, convert_alike, Ew.
  Qed.
  Lemma mass_add_alike m d ix ix0 : rounded ix = rounded ix0 -> rounded (mass_add_wordinfo rnd m d ix) = rounded (mass_add_wordinfo rnd m d ix0).
  Proof.
    intros H. pose proof (alike_ix _ _ H) as (E1 & E2 & E3 & E4 & E5 & E6). unfold mass_add_wordinfo. destruct (mass_alike d (elts m) _ _ 0 E6) as [M1 M2].
    destruct (fold_left _ _ (wordinfo ix, 0)) as [wi n], (fold_left _ _ (wordinfo ix0, 0)) as [wi0 n0]. cbn [fst snd] in *. subst n0.
    apply alike_mk; cbn [change_wordCount set_wordinfo docwords docweight wordCount documentCount totaldoclen wordinfo]; try congruence; exact M1.
  Qed.
  Lemma set_words_alike (f : smap Z str -> smap Z str) ix ix0 : rounded ix = rounded ix0 -> rounded (set_docwords (f (docwords ix)) ix) = rounded (set_docwords (f (docwords ix0)) ix0).
  Proof. intros H. pose proof (alike_ix _ _ H) as (E1 & E2 & E3 & E4 & E5 & E6). apply alike_mk; cbn; try congruence; exact E6. Qed.
  Lemma set_weight_alike (f : smap Z V -> smap Z V) ix ix0 : rounded ix = rounded ix0 -> rounded (set_docweight (f (docweight ix)) ix) = rounded (set_docweight (f (docweight ix0)) ix0).
  Proof. intros H. pose proof (alike_ix _ _ H) as (E1 & E2 & E3 & E4 & E5 & E6). apply alike_mk; cbn; try congruence; exact E6. Qed.
  Lemma doc_count_alike n ix ix0 : rounded ix = rounded ix0 -> rounded (change_documentCount n ix) = rounded (change_documentCount n ix0).
  Proof. intros H. pose proof (alike_ix _ _ H) as (E1 & E2 & E3 & E4 & E5 & E6). apply alike_mk; cbn; try congruence; exact E6. Qed.

  Variable veqb : V -> V -> bool.
  Variable freqs : list Z -> res (smap Z V * V).
  Variable pipeline : list elem.
  Lemma sim_source t : sim (source (V := V) pipeline t).
  Proof.
    intros s s0 [H1 H2]. unfold source. rewrite H1. destruct (sourceToWordIds pipeline t (slx s0)) as [lx r]. cbn [fst snd]. split; [reflexivity|]. split; [reflexivity|exact H2].
  Qed.
  Lemma sim_const {A} (x : res A) : sim (slift (fun _ => x)).
  Proof. apply sim_lift. reflexivity. Qed.
  Lemma sim_reindex d src : sim src -> sim (base_reindex_with rnd veqb freqs d src).
  Proof.
    intros Hs. unfold base_reindex_with. apply sim_bind; [apply sim_lift; intros; apply alike_words; assumption|]. intros old.
    apply sim_bind; [apply sim_const|]. intros [m0 x0]. apply sim_bind; [exact Hs|]. intros new. apply sim_bind; [apply sim_const|]. intros [m dw].
    apply sim_bind; [apply sim_iter; intros; apply sim_del|]. intros _.
    apply sim_bind; [apply sim_iter; intros w; apply sim_bind; [apply sim_const|intros v; apply sim_on; intros; apply add_alike; assumption]|]. intros _.
    apply sim_bind.
    { apply sim_iter. intros w. apply sim_bind; [apply sim_const|]. intros v. apply sim_bind; [apply sim_const|]. intros v'.
      apply sim_if; [|apply sim_ret]. apply sim_on. intros; apply add_alike; assumption. }
    intros _. apply sim_bind; [apply sim_on; intros; apply (set_weight_alike (put d (rnd dw))); assumption|]. intros _. apply sim_bind; [apply sim_const|]. intros code.
    apply sim_bind; [apply sim_on; intros; apply (set_words_alike (put d code)); assumption|]. intros _. apply sim_ret.
  Qed.
  Lemma sim_index re d src : sim src -> (forall d, sim (re d src)) -> sim (base_index_doc_with rnd freqs re d src).
  Proof.
    intros Hs Hr. unfold base_index_doc_with. apply (sim_test (fun s => has_doc (six s) d)); [intros; apply alike_has; assumption|apply Hr|].
    apply sim_bind; [exact Hs|]. intros wids. apply sim_bind; [apply sim_const|]. intros [m dw].
    apply sim_bind; [apply sim_on; intros; apply mass_add_alike; assumption|]. intros _.
    apply sim_bind; [apply sim_on; intros; apply (set_weight_alike (put d (rnd dw))); assumption|]. intros _. apply sim_bind; [apply sim_const|]. intros code.
    apply sim_bind; [apply sim_on; intros; apply (set_words_alike (put d code)); assumption|]. intros _.
    apply sim_bind; [apply sim_on; intros; apply doc_count_alike; assumption|]. intros _. apply sim_ret.
  Qed.
  Lemma sim_unindex d : sim (base_unindex_doc (V := V) d).
  Proof.
    unfold base_unindex_doc. apply (sim_test (fun s => negb (has_doc (six s) d))); [intros; f_equal; apply alike_has; assumption|intros s s0 H; split; [reflexivity|exact H]|].
    apply sim_bind; [apply sim_lift; intros; apply alike_words; assumption|]. intros wids.
    apply sim_bind; [apply sim_iter; intros; apply sim_del|]. intros _. unfold delitem.
    apply sim_bind; [apply sim_bind; [apply sim_lift; intros s s0 [_ H]; rewrite (proj1 (alike_ix _ _ H)); reflexivity|intros _; apply sim_on; intros; apply (set_words_alike (del d)); assumption]|]. intros _.
    apply sim_bind; [apply sim_bind; [apply sim_lift; intros s s0 [_ H]; rewrite (proj1 (proj2 (alike_ix _ _ H))); reflexivity|intros _; apply sim_on; intros; apply (set_weight_alike (del d)); assumption]|]. intros _.
    apply sim_on. intros; apply doc_count_alike; assumption.
  Qed.
  Lemma sim_ops idx un ops : (forall d t, sim (idx d t)) -> (forall d, sim (un d)) -> sim (siter (op_step (V := V) pipeline idx un) ops).
  Proof.
    intros Hi Hu. apply sim_iter. intros [d t|d| |lo]; cbn [op_step].
    - apply sim_bind; [apply Hi|intros _; apply sim_ret].
    - apply Hu.
    - apply sim_on. intros ix ix0 H. pose proof (alike_ix _ _ H) as (_ & _ & _ & _ & E5 & _). unfold ix_clear. rewrite E5. reflexivity.
    - intros s s0 [H1 H2]. split; [reflexivity|]. split; [cbn; rewrite H1; reflexivity|exact H2].
  Qed.
End Round.

(** ** Answers of a cosine index *)
Section CosAlike.
  Context {F : Type} {AF : Arith F}.
  Variable pipeline : list elem.
  Lemma alike_mem (ix ix0 : bindex F) w : rounded f32 ix = rounded f32 ix0 -> mem w (wordinfo ix) = mem w (wordinfo ix0).
  Proof. intros H. pose proof (alike_ix _ _ _ H) as (_ & _ & _ & _ & _ & E). specialize (E w). unfold mem. destruct (get (wordinfo ix) w), (get (wordinfo ix0) w); cbn in E |- *; congruence. Qed.
  Lemma alike_oov (ix ix0 : bindex F) wids : rounded f32 ix = rounded f32 ix0 -> remove_oov ix wids = remove_oov ix0 wids.
  Proof. intros H. unfold remove_oov. apply filter_ext. intros w. apply alike_mem, H. Qed.
  Lemma alike_wid (ix ix0 : bindex F) w : rounded f32 ix = rounded f32 ix0 -> cos_search_wid ix w = cos_search_wid ix0 w.
  Proof.
    intros H. unfold cos_search_wid. rewrite (alike_mem _ _ w H). pose proof (alike_ix _ _ _ H) as (_ & E2 & _ & _ & _ & E6). specialize (E6 w).
    destruct (negb _); [reflexivity|]. unfold item. destruct (get (wordinfo ix) w) as [p|], (get (wordinfo ix0) w) as [p0|]; cbn [option_map] in E6; try discriminate; [|reflexivity].
    injection E6 as E6. cbn [bind]. rewrite (posting_size _ _ _ E6), E2. destruct (inverse_doc_frequency _ _) as [v|]; [|reflexivity]. cbn [bind]. do 2 f_equal.
    unfold round_posting in E6. destruct (p_dict p) eqn:D, (p_dict p0) eqn:D0.
    - exact (f_equal p_map E6).
    - pose proof (f_equal p_dict E6) as X. cbn in X. congruence.
    - pose proof (f_equal p_dict E6) as X. cbn in X. congruence.
    - congruence.
  Qed.
  Lemma alike_wids (ix ix0 : bindex F) wids : rounded f32 ix = rounded f32 ix0 -> cos_search_wids ix wids = cos_search_wids ix0 wids.
  Proof. intros H. unfold cos_search_wids. induction wids as [|w wids IH]; [reflexivity|]. cbn [mapM]. rewrite (alike_wid _ _ w H), IH. reflexivity. Qed.
  Lemma alike_loop (ix ix0 : bindex F) code hits : docwords ix = docwords ix0 -> forall r : smap Z F, phrase_loop ix code hits r = phrase_loop ix0 code hits r.
  Proof. intros H. induction hits as [|[d w] hits IH]; intros r; [reflexivity|]. cbn [phrase_loop]. rewrite H. destruct (item _ _); [apply IH|reflexivity]. Qed.
  Lemma alike_same (s s0 : sys F) : alike f32 s s0 -> cos_same pipeline s s0.
  Proof.
    intros A. pose proof A as [L H]. pose proof (alike_ix _ _ _ H) as (E1 & E2 & E3 & E4 & E5 & E6). split; [|split; [|split; [|split]]].
    - split; [exact L|]. split; [intros; apply (alike_has f32), A|]. split; [intros; apply (alike_words f32), A|]. auto.
    - intros t. unfold search. rewrite L. destruct (termToWordIds _ _ _) as [|w l]; [reflexivity|]. rewrite (alike_oov _ _ (w :: l) H), (alike_wids _ _ _ H). reflexivity.
    - intros t. unfold search_phrase. rewrite L, (alike_oov _ _ _ H), (alike_wids _ _ _ H). destruct (negb _); [reflexivity|].
      destruct (cos_search_wids _ _) as [sc|]; [|reflexivity]. cbn [bind]. destruct (mass_weightedIntersection _) as [h|]; [|reflexivity]. cbn [bind].
      destruct (is_empty h); [reflexivity|]. destruct (encode _) as [c|]; [|reflexivity]. cbn [bind]. apply alike_loop, E1.
    - intros p. unfold search_glob. rewrite L. destruct (globToWordIds _ _) as [wids|]; [|reflexivity]. cbn [bind]. rewrite (alike_oov _ _ _ H), (alike_wids _ _ _ H). reflexivity.
    - intros ts. unfold cos_query_weight. rewrite L, E2, (alike_oov _ _ _ H). f_equal. generalize (Ok (f0 : F)) as acc. induction (remove_oov _ _) as [|w l IH]; intros acc; [reflexivity|].
      cbn [fold_left]. rewrite IH. f_equal. specialize (E6 w). unfold item.
      destruct acc as [a|]; [|reflexivity]. cbn [bind].
      destruct (get (wordinfo (six s)) w) as [p|], (get (wordinfo (six s0)) w) as [p0|]; cbn [option_map] in E6; try discriminate; [|reflexivity].
      injection E6 as E6. cbn [bind]. rewrite (posting_size _ _ _ E6). reflexivity.
  Qed.
  Lemma cos_same_sym (a b : sys F) : cos_same pipeline a b -> cos_same pipeline b a.
  Proof. intros ((H1 & H2 & H3 & H4 & H5) & H6 & H7 & H8 & H9). repeat split; intros; symmetry; auto. Qed.
  Lemma cos_same_trans (a b c : sys F) : cos_same pipeline a b -> cos_same pipeline b c -> cos_same pipeline a c.
  Proof.
    intros ((H1 & H2 & H3 & H4 & H5) & H6 & H7 & H8 & H9) ((J1 & J2 & J3 & J4 & J5) & J6 & J7 & J8 & J9).
    repeat split; intros; (etransitivity; [eauto|eauto]).
  Qed.
End CosAlike.
