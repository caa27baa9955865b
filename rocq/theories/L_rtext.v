(** * Lemmas: text indexes given document ids out of range *)
From Verif Require Import L_widcode L_lexicon L_setops L_baseindex L_textsys L_okapi L_cosine L_search L_okasearch L_textapi L_costext
  S_rtext S_text S_textapi M_rtext SMap Ord.

Ltac fields := cbn [six slx wordinfo docweight docwords wordCount documentCount totaldoclen set_wordinfo set_docweight set_docwords
  change_wordCount change_documentCount change_totaldoclen on_ix smod] in *.

Section Sim.
  Variable fits : Z -> bool.
  Context {V : Type}.
  Variable rnd : V -> V.
  Variable veqb : V -> V -> bool.
  Variable freqs : list Z -> res (smap Z V * V).
  Variable pipeline : list elem.
  Implicit Types s c : sys V.
  Implicit Types bad : Z -> Prop.

  Definition fitting {X} (m : smap Z X) : smap Z X := sfilter (fun d _ => fits d) m.
  Lemma get_fitting {X} (m : smap Z X) d : get (fitting m) d = if fits d then get m d else None.
  Proof. unfold fitting. rewrite get_sfilter. destruct (get m d), (fits d); reflexivity. Qed.
  Definition all_fit {X} (m : smap Z X) : Prop := forall d, mem d m = true -> fits d = true.
  Lemma all_fit_put {X} d (x : X) m : fits d = true -> all_fit m -> all_fit (put d x m).
  Proof.
    intros Hd H k Hk. apply mem_get in Hk as [y Hk]. rewrite get_put in Hk. destruct (eqb k d) eqn:E.
    - apply eqb_eq in E. subst. exact Hd.
    - apply H, mem_get. eauto.
  Qed.
  Lemma all_fit_del {X} d (m : smap Z X) : all_fit m -> all_fit (del d m).
  Proof.
    intros H k Hk. apply mem_get in Hk as [y Hk]. rewrite get_del in Hk. destruct (eqb k d); [discriminate|]. apply H, mem_get. eauto.
  Qed.
  Lemma all_fit_empty {X} : all_fit (@empty Z X _).
  Proof. intros d Hd. apply mem_get in Hd as [y Hd]. rewrite get_empty in Hd. discriminate. Qed.
  Lemma all_fit_forallb {X} (m : smap Z X) : forallb fits (keys m) = true <-> all_fit m.
  Proof.
    rewrite forallb_forall. split; intros H d Hd; apply H; [apply keys_In|apply mem_get]; [apply mem_get in Hd; exact Hd|].
    apply keys_In in Hd. exact Hd.
  Qed.

  (** A posting of the index and one of the index without the refused calls. *)
  Definition spoilt (p : posting V) (q : option (posting V)) : Prop :=
    p_dict p = true /\ (exists d, mem d (p_map p) = true /\ fits d = false) /\ Zsize (p_map p) <= 10 /\
    match q with Some q => p_dict q = true /\ p_map q = fitting (p_map p) | None => fitting (p_map p) = empty end.
  Definition wrel bad (wid : Z) (a b : option (posting V)) : Prop := a = b \/ (bad wid /\ exists p, a = Some p /\ spoilt p b).
  Definition okp (b : option (posting V)) : Prop :=
    forall q, b = Some q -> all_fit (p_map q) /\ (p_dict q = true -> Zsize (p_map q) <= 10).

  Record rrel bad (s c : sys V) : Prop := mkRR {
    rr_lx : slx s = slx c;
    rr_dw : docweight (six s) = docweight (six c);
    rr_do : docwords (six s) = docwords (six c);
    rr_dc : documentCount (six s) = documentCount (six c);
    rr_tl : totaldoclen (six s) = totaldoclen (six c);
    rr_fit : all_fit (docwords (six c));
    rr_okp : forall wid, okp (get (wordinfo (six c)) wid);
    rr_word : forall wid, wrel bad wid (get (wordinfo (six s)) wid) (get (wordinfo (six c)) wid)
  }.
  Lemma rrel_mono bad bad' s c : (forall wid, bad wid -> bad' wid) -> rrel bad s c -> rrel bad' s c.
  Proof. intros H [? ? ? ? ? ? ? Hw]. constructor; try assumption. intros wid. destruct (Hw wid) as [E|[Hb Hp]]; [left|right]; auto. Qed.

  Definition simb {A} (bad : Z -> Prop) (ws : list Z) (m n : sx (sys V) A) : Prop :=
    forall s c c' a, rrel bad s c -> n c = (c', Ok a) ->
      (exists s', m s = (s', Ok a) /\ rrel bad s' c') \/ ((exists s', m s = (s', Raise TypeError)) /\ exists wid, In wid ws /\ bad wid).

  Lemma sb_ret {A} bad ws (a : A) : simb bad ws (sret a) (sret a).
  Proof. intros s c c' b Hr E. injection E as <- <-. left. exists s. auto. Qed.
  Lemma sb_bind {A B} bad ws (m n : sx (sys V) A) (f g : A -> sx (sys V) B) :
    simb bad ws m n -> (forall a, simb bad ws (f a) (g a)) -> simb bad ws (sbind m f) (sbind n g).
  Proof.
    intros H1 H2 s c c' b Hr E. unfold sbind in *. destruct (n c) as [c1 [a|e]] eqn:En; [|discriminate].
    destruct (H1 _ _ _ _ Hr En) as [(s1 & -> & Hr1)|[(s1 & ->) Hb]]; [exact (H2 a _ _ _ _ Hr1 E)|]. right. split; [exists s1; reflexivity|exact Hb].
  Qed.
  Lemma sb_lift {A} bad ws (f g : sys V -> res A) : (forall s c, rrel bad s c -> f s = g c) -> simb bad ws (slift f) (slift g).
  Proof. intros H s c c' a Hr E. unfold slift in *. injection E as <- E. left. exists s. rewrite (H s c Hr), E. auto. Qed.
  Lemma sb_const {A} bad ws (r : res A) : simb bad ws (slift (fun _ => r)) (slift (fun _ => r)).
  Proof. apply sb_lift. reflexivity. Qed.
  Lemma sb_iter {A} bad ws (f g : A -> sx (sys V) unit) l : (forall x, In x l -> simb bad ws (f x) (g x)) -> simb bad ws (siter f l) (siter g l).
  Proof.
    induction l as [|x l IH]; intros H; cbn [siter]; [apply sb_ret|]. apply sb_bind; [apply H; left; reflexivity|]. intros _.
    apply IH. intros y Hy. apply H. right. exact Hy.
  Qed.
  Lemma sb_on bad ws (f g : bindex V -> bindex V) :
    (forall lx ix ix', rrel bad (mkSys lx ix) (mkSys lx ix') -> rrel bad (mkSys lx (f ix)) (mkSys lx (g ix'))) ->
    simb bad ws (on_ix f) (on_ix g).
  Proof.
    intros H [lx ix] [lx' ix'] c' a Hr E. assert (lx = lx') as -> by exact (rr_lx _ _ _ Hr).
    injection E as <- <-. left. eexists. split; [reflexivity|]. exact (H _ _ _ Hr).
  Qed.

  Lemma sb_docweight bad ws d v : fits d = true ->
    simb bad ws (r_put_docweight fits rnd d v) (on_ix (fun ix => set_docweight (put d (rnd v) (docweight ix)) ix)).
  Proof.
    intros Hd. unfold r_put_docweight. rewrite Hd. apply sb_on. intros lx ix ix' [? H2 ? ? ? ? ? ?]. fields. constructor; fields; try assumption.
    rewrite H2. reflexivity.
  Qed.
  Lemma sb_docwords bad ws d v : fits d = true ->
    simb bad ws (r_put_docwords fits d v) (on_ix (fun ix => set_docwords (put d v (docwords ix)) ix)).
  Proof.
    intros Hd. unfold r_put_docwords. rewrite Hd. apply sb_on. intros lx ix ix' [? ? H3 ? ? Hf ? ?]. fields. constructor; fields; try assumption.
    - rewrite H3. reflexivity.
    - apply all_fit_put; assumption.
  Qed.
  Lemma sb_docCount bad ws n : simb bad ws (on_ix (change_documentCount n)) (on_ix (change_documentCount n)).
  Proof.
    apply sb_on. intros lx ix ix' [? ? ? H4 ? ? ? ?]. fields. constructor; fields; try assumption. rewrite H4. reflexivity.
  Qed.
  Lemma sb_total bad ws n : simb bad ws (on_ix (change_totaldoclen n)) (on_ix (change_totaldoclen n)).
  Proof.
    apply sb_on. intros lx ix ix' [? ? ? ? H5 ? ? ?]. fields. constructor; fields; try assumption. rewrite H5. reflexivity.
  Qed.
  Lemma sb_source bad ws t : simb bad ws (source pipeline t) (source pipeline t).
  Proof.
    intros [lx ix] [lx' ix'] c' a Hr E. assert (lx = lx') as -> by exact (rr_lx _ _ _ Hr). unfold source in *. cbn [slx six] in *.
    destruct (sourceToWordIds pipeline t lx') as [lx2 r]. injection E as <- ->. left. eexists. split; [reflexivity|].
    destruct Hr. constructor; try assumption; reflexivity.
  Qed.
  Lemma sb_get_words bad ws d : simb bad ws (slift (fun s => get_words (six s) d)) (slift (fun s => get_words (six s) d)).
  Proof. apply sb_lift. intros s c Hr. unfold get_words. rewrite (rr_do _ _ _ Hr). reflexivity. Qed.

  Lemma size_put_le {X} d (x : X) (m : smap Z X) : Zsize (put d x m) <= Zsize m + 1.
  Proof. destruct (get m d) eqn:E; [rewrite (Zsize_put_old _ _ _ _ E)|rewrite (Zsize_put_new _ _ _ E)]; lia. Qed.
  Lemma size_fitting_lt {X} (m : smap Z X) d : mem d m = true -> fits d = false -> Zsize (fitting m) < Zsize m.
  Proof.
    intros Hd Hf. apply mem_get in Hd as [x Hx].
    assert (E : fitting m = fitting (del d m)).
    { apply smap_ext. intros k. rewrite !get_fitting, get_del. destruct (eqb k d) eqn:E; [apply eqb_eq in E; subst; rewrite Hf; reflexivity|reflexivity]. }
    rewrite E. pose proof (Zsize_del _ _ _ Hx) as Hs. assert (Zsize (fitting (del d m)) <= Zsize (del d m)); [|lia].
    generalize (del d m). intros m'. unfold Zsize, fitting, size, sfilter. cbn [elts]. generalize (elts m'). intros l. induction l as [|y l IH]; [reflexivity|]. cbn [filter]. destruct (fits (fst y)); cbn [length]; lia.
  Qed.
  Lemma fitting_put {X} d (x : X) (m : smap Z X) : fits d = true -> fitting (put d x m) = put d x (fitting m).
  Proof.
    intros Hd. apply smap_ext. intros k. rewrite get_put, !get_fitting, get_put. destruct (eqb k d) eqn:E; [|reflexivity].
    apply eqb_eq in E. subst. rewrite Hd. reflexivity.
  Qed.
  Lemma fitting_put_bad {X} d (x : X) (m : smap Z X) : fits d = false -> fitting (put d x m) = fitting m.
  Proof.
    intros Hd. apply smap_ext. intros k. rewrite !get_fitting, get_put. destruct (eqb k d) eqn:E; [|reflexivity].
    apply eqb_eq in E. subst. rewrite Hd. reflexivity.
  Qed.
  Lemma fitting_del {X} d (m : smap Z X) : fitting (del d m) = del d (fitting m).
  Proof. apply smap_ext. intros k. rewrite get_del, !get_fitting, get_del. destruct (eqb k d), (fits k); reflexivity. Qed.
  Lemma fitting_all {X} (m : smap Z X) : all_fit m -> fitting m = m.
  Proof.
    intros H. apply smap_ext. intros k. rewrite get_fitting. destruct (fits k) eqn:E; [reflexivity|].
    destruct (get m k) eqn:Eg; [|reflexivity]. assert (fits k = true) by (apply H, mem_get; eauto). congruence.
  Qed.

  (** The new value of the clean index. *)
  Definition updated (d : Z) (f : V) (old : option (posting V)) : posting V :=
    p_set rnd d f (match old with None => mkPosting true empty | Some p => convert rnd p end).
  Lemma all_fit_convert p : all_fit (p_map p) -> all_fit (p_map (convert rnd p)).
  Proof.
    intros H. unfold convert. destruct (_ && _); [|exact H]. intros d Hd. apply H. apply mem_get in Hd as [x Hx]. cbn [p_map] in Hx.
    rewrite get_mmap in Hx. apply mem_get. destruct (get (p_map p) d); [eauto|discriminate].
  Qed.
  Lemma okp_updated d f old : fits d = true -> okp old -> okp (Some (updated d f old)).
  Proof.
    intros Hd Ho q [= <-]. unfold updated. destruct old as [p|].
    - destruct (Ho p eq_refl) as [H1 H2]. split; [apply all_fit_put; [exact Hd|apply all_fit_convert, H1]|].
      cbn [p_set p_dict p_map]. unfold convert. destruct (p_dict p && (Zsize (p_map p) =? DICT_CUTOFF)) eqn:E; [discriminate|].
      intros Hp. rewrite Hp in *. specialize (H2 eq_refl). cbn [andb] in E. apply Z.eqb_neq in E. unfold DICT_CUTOFF in E.
      pose proof (size_put_le d f (p_map p)). lia.
    - split; [apply all_fit_put; [exact Hd|apply all_fit_empty]|]. intros _. pose proof (size_put_le d f (@empty Z V _)).
      change (Zsize (@empty Z V _)) with 0 in *. cbn [p_set p_dict p_map]. lia.
  Qed.
  Lemma r_updated_same d f old : fits d = true -> okp old -> r_updated fits rnd d f old = Ok (updated d f old).
  Proof.
    intros Hd Ho. unfold r_updated, updated. assert (G : forall p, r_p_set fits rnd d f p = Ok (p_set rnd d f p)).
    { intros p. unfold r_p_set. rewrite Hd, orb_true_r. reflexivity. }
    destruct old as [p|]; [|apply G]. destruct (Ho p eq_refl) as [H1 H2]. unfold r_convert.
    destruct (p_dict p && (Zsize (p_map p) =? DICT_CUTOFF)) eqn:E; cbn [bind].
    - rewrite (proj2 (all_fit_forallb _) H1). apply G.
    - rewrite G. unfold convert. rewrite E. reflexivity.
  Qed.
  Lemma r_updated_spoilt d f p old : fits d = true -> spoilt p old ->
    r_updated fits rnd d f (Some p) = Raise TypeError \/
    exists p', r_updated fits rnd d f (Some p) = Ok p' /\ spoilt p' (Some (updated d f old)).
  Proof.
    intros Hd (H1 & (d' & Hm & Hf) & Hs & Ho). unfold r_updated, r_convert. rewrite H1. cbn [andb].
    destruct (Zsize (p_map p) =? DICT_CUTOFF) eqn:Es.
    - left. destruct (forallb fits (keys (p_map p))) eqn:E; [|reflexivity]. apply all_fit_forallb in E. rewrite (E _ Hm) in Hf. discriminate.
    - right. cbn [bind]. unfold r_p_set. rewrite H1. cbn [orb]. eexists. split; [reflexivity|]. apply Z.eqb_neq in Es. unfold DICT_CUTOFF in Es.
      assert (Hne : eqb d' d = false) by (apply eqb_neq; congruence).
      unfold p_set at 1. rewrite H1. split; [reflexivity|]. split; [exists d'; split; [|exact Hf]|split].
      + cbn [p_map]. apply mem_get. rewrite get_put, Hne. apply mem_get, Hm.
      + cbn [p_map]. pose proof (size_put_le d f (p_map p)). lia.
      + unfold updated. destruct old as [q|].
        * destruct Ho as [Hq Hqm]. assert (Hl : Zsize (p_map q) < 10) by (rewrite Hqm; pose proof (size_fitting_lt _ _ Hm Hf); lia).
          unfold convert. rewrite Hq. cbn [andb]. replace (Zsize (p_map q) =? DICT_CUTOFF) with false by (symmetry; apply Z.eqb_neq; unfold DICT_CUTOFF; lia).
          unfold p_set. cbn [p_dict p_map]. rewrite Hq, Hqm. split; [reflexivity|]. symmetry. apply fitting_put, Hd.
        * unfold p_set. cbn [p_dict p_map]. split; [reflexivity|]. rewrite fitting_put by exact Hd. rewrite Ho. reflexivity.
  Qed.
  (** A document id that does not fit. *)
  Lemma r_updated_bad d f a b : fits d = false -> okp b -> (a = b \/ exists p, a = Some p /\ spoilt p b) ->
    r_updated fits rnd d f a = Raise TypeError \/ exists p', r_updated fits rnd d f a = Ok p' /\ spoilt p' b.
  Proof.
    intros Hd Ho Hab.
    assert (G : forall p, p_dict p = true -> Zsize (p_map p) < 10 ->
                match b with Some q => p_dict q = true /\ p_map q = fitting (p_map p) | None => fitting (p_map p) = empty end ->
                exists p', r_p_set fits rnd d f p = Ok p' /\ spoilt p' b).
    { intros p Hp Hs Hb. unfold r_p_set. rewrite Hp. cbn [orb]. eexists. split; [reflexivity|]. unfold p_set. rewrite Hp.
      split; [reflexivity|]. cbn [p_map]. split; [exists d; split; [apply mem_get; rewrite get_put, eqb_refl; eauto|exact Hd]|].
      split; [pose proof (size_put_le d f (p_map p)); lia|]. rewrite fitting_put_bad by exact Hd. exact Hb. }
    assert (G2 : forall p, a = Some p -> p_dict p = true -> Zsize (p_map p) <= 10 ->
                match b with Some q => p_dict q = true /\ p_map q = fitting (p_map p) | None => fitting (p_map p) = empty end ->
                r_updated fits rnd d f a = Raise TypeError \/ exists p', r_updated fits rnd d f a = Ok p' /\ spoilt p' b).
    { intros p -> Hp Hs Hb. unfold r_updated, r_convert. rewrite Hp. cbn [andb]. destruct (Zsize (p_map p) =? DICT_CUTOFF) eqn:Es.
      - left. destruct (forallb fits (keys (p_map p))); [|reflexivity]. cbn [bind]. unfold r_p_set, convert. rewrite Hp, Es, Hd. reflexivity.
      - right. cbn [bind]. apply G; auto. apply Z.eqb_neq in Es. unfold DICT_CUTOFF in Es. lia. }
    destruct Hab as [-> |(p & -> & H1 & _ & H2 & H3)].
    - destruct b as [p|].
      + destruct (Ho p eq_refl) as [H1 H2]. destruct (p_dict p) eqn:Hp.
        * apply (G2 p eq_refl Hp (H2 eq_refl)). split; [first [exact Hp|reflexivity]|]. symmetry. apply fitting_all, H1.
        * left. unfold r_updated, r_convert. rewrite Hp. cbn [andb bind]. unfold r_p_set. rewrite Hp, Hd. reflexivity.
      + right. unfold r_updated. cbn [bind]. apply G; [reflexivity|reflexivity|]. apply fitting_all, all_fit_empty.
    - exact (G2 p eq_refl H1 H2 H3).
  Qed.
  Lemma wrel_updated bad wid d f a b : fits d = true -> okp b -> wrel bad wid a b ->
    (r_updated fits rnd d f a = Raise TypeError /\ bad wid) \/
    exists p', r_updated fits rnd d f a = Ok p' /\ wrel bad wid (Some p') (Some (updated d f b)).
  Proof.
    intros Hd Ho [-> |(Hb & p & -> & Hp)].
    - right. exists (updated d f b). split; [apply r_updated_same; assumption|left; reflexivity].
    - destruct (r_updated_spoilt d f p b Hd Hp) as [E|(p' & E & Hp')]; [left; auto|right]. exists p'. split; [exact E|]. right. eauto.
  Qed.

  Lemma rrel_put bad lx lx' ix ix' wid p q n m : rrel bad (mkSys lx ix) (mkSys lx' ix') -> wrel bad wid (Some p) (Some q) -> okp (Some q) ->
    rrel bad (mkSys lx (change_wordCount n (set_wordinfo (put wid p (wordinfo ix)) ix)))
             (mkSys lx' (change_wordCount m (set_wordinfo (put wid q (wordinfo ix')) ix'))).
  Proof.
    intros [? ? ? ? ? ? Ho Hw] Hp Hq. fields. constructor; fields; try assumption; intros k; rewrite ?get_put; destruct (eqb k wid) eqn:E; auto.
    apply eqb_eq in E. subst. exact Hp.
  Qed.
  Lemma add_wordinfo_updated wid f d ix : exists n, add_wordinfo rnd wid f d ix =
    change_wordCount n (set_wordinfo (put wid (updated d f (get (wordinfo ix) wid)) (wordinfo ix)) ix).
  Proof.
    unfold add_wordinfo, updated. destruct (get (wordinfo ix) wid); [exists 0|exists 1; reflexivity].
    unfold change_wordCount, set_wordinfo. fields. rewrite Z.add_0_r. reflexivity.
  Qed.
  Lemma sb_add bad ws wid f d : fits d = true -> In wid ws -> simb bad ws (r_add_wordinfo fits rnd wid f d) (on_ix (add_wordinfo rnd wid f d)).
  Proof.
    intros Hd Hin [lx ix] [lx' ix'] c' a Hr E. injection E as <- <-. unfold r_add_wordinfo, sbind, slift. cbn [six slx].
    destruct (add_wordinfo_updated wid f d ix') as [m ->].
    destruct (wrel_updated bad wid d f _ _ Hd (rr_okp _ _ _ Hr wid) (rr_word _ _ _ Hr wid)) as [[E Hb]|(p' & E & Hw)]; cbn [six] in *.
    - right. split; [|eauto]. rewrite E. destruct (get (wordinfo ix) wid); eexists; reflexivity.
    - left. assert (Hq : okp (Some (updated d f (get (wordinfo ix') wid)))) by (apply okp_updated; [exact Hd|exact (rr_okp _ _ _ Hr wid)]).
      rewrite E. destruct (get (wordinfo ix) wid); fields; (eexists; split; [reflexivity|]).
      + pose proof (rrel_put bad lx lx' ix ix' wid p' _ 0 m Hr Hw Hq) as H. unfold change_wordCount, set_wordinfo in *. fields.
        rewrite Z.add_0_r in H. exact H.
      + exact (rrel_put bad lx lx' ix ix' wid p' _ 1 m Hr Hw Hq).
  Qed.
  Lemma sb_del bad ws wid d : fits d = true -> simb bad ws (del_wordinfo wid d) (del_wordinfo wid d).
  Proof.
    intros Hd [lx ix] [lx' ix'] c' a Hr E. unfold del_wordinfo, sbind, slift, item in *. cbn [six slx] in *.
    pose proof (rr_word _ _ _ Hr wid) as Hw. pose proof (rr_okp _ _ _ Hr wid) as Hq. cbn [six] in *.
    destruct (get (wordinfo ix') wid) as [q|] eqn:Eq; [|discriminate]. destruct (get (p_map q) d) as [v|] eqn:Ev; [|discriminate].
    cbn [p_map] in *. left.
    assert (Hq' : okp (Some (mkPosting (p_dict q) (del d (p_map q))))).
    { intros q' [= <-]. destruct (Hq q eq_refl) as [H1 H2]. split; [apply all_fit_del, H1|]. cbn [p_dict p_map]. intros Hp.
      rewrite (Zsize_del _ _ _ Ev). specialize (H2 Hp). lia. }
    destruct Hw as [Ew|(Hb & p & Ew & Hp)]; rewrite Ew.
    - rewrite Ev. cbn [p_map]. destruct (is_empty (del d (p_map q))); injection E as <- <-; eexists; (split; [reflexivity|]); cbn [slx six];
        destruct Hr as [? ? ? ? ? ? Ho Hw]; fields; constructor; fields; try assumption; intros k; rewrite ?get_del, ?get_put;
        destruct (eqb k wid) eqn:E; auto; try (left; reflexivity). intros ? ?; discriminate.
    - destruct Hp as (H1 & (d' & Hm & Hf) & Hs & Hqd & Hqm).
      assert (Hgp : get (p_map p) d = Some v) by (rewrite Hqm, get_fitting, Hd in Ev; exact Ev). rewrite Hgp. cbn [p_map].
      assert (Hmem : mem d' (del d (p_map p)) = true).
      { apply mem_get. rewrite get_del. assert (Hn : eqb d' d = false) by (apply eqb_neq; congruence). rewrite Hn. apply mem_get, Hm. }
      destruct (is_empty (del d (p_map p))) eqn:Ee.
      { apply is_empty_spec in Ee. rewrite Ee in Hmem. apply mem_get in Hmem as [x Hx]. rewrite get_empty in Hx. discriminate. }
      assert (Hsp : spoilt (mkPosting (p_dict p) (del d (p_map p)))
                      (if is_empty (del d (p_map q)) then None else Some (mkPosting (p_dict q) (del d (p_map q))))).
      { split; [exact H1|]. cbn [p_map]. split; [exists d'; auto|]. split; [rewrite (Zsize_del _ _ _ Hgp); lia|].
        rewrite fitting_del, <- Hqm. destruct (is_empty (del d (p_map q))) eqn:E1; [apply is_empty_spec, E1|]. split; [exact Hqd|reflexivity]. }
      destruct a. eexists. split; [reflexivity|]. cbn [slx six].
      destruct (is_empty (del d (p_map q))) eqn:E1; inversion E; subst c'; clear E; destruct Hr as [? ? ? ? ? ? Ho Hw]; fields; constructor; fields; try assumption; intros k; rewrite ?get_del, ?get_put;
        destruct (eqb k wid) eqn:E; auto; try (intros ? ?; discriminate); apply eqb_eq in E; subst; right; (split; [exact Hb|eauto]).
  Qed.

  (** ** The loop over the words of a new document *)
  Lemma mass_get d (l : list (Z * V)) : NoDup (map fst l) -> forall wi n k,
    get (fst (fold_left (mass_step rnd d) l (wi, n))) k =
    match rget l k with Some v => Some (updated d v (get wi k)) | None => get wi k end.
  Proof.
    induction l as [|[w v] l IH]; intros Hn wi n k; [reflexivity|]. cbn [map fst] in Hn. inversion Hn as [|? ? Hni Hn']; subst.
    cbn [fold_left]. unfold mass_step at 2. cbn [fst snd].
    assert (Hu : forall p, p = updated d v (get wi w) -> forall m,
      get (fst (fold_left (mass_step rnd d) l (put w p wi, m))) k =
      match rget ((w, v) :: l) k with Some v => Some (updated d v (get wi k)) | None => get wi k end).
    { intros p -> m. rewrite IH by exact Hn'. cbn [rget]. rewrite get_put. destruct (eqb k w) eqn:E; [|reflexivity].
      apply eqb_eq in E. subst. destruct (rget l w) eqn:El; [|reflexivity]. exfalso.
      pose proof (proj2 (rget_None_notin l w) Hni). congruence. }
    destruct (get wi w) as [p|] eqn:E; apply Hu; reflexivity.
  Qed.
  Lemma mass_order d (l l' : list (Z * V)) wi n n' : NoDup (map fst l) -> NoDup (map fst l') -> (forall k, rget l k = rget l' k) ->
    fst (fold_left (mass_step rnd d) l (wi, n)) = fst (fold_left (mass_step rnd d) l' (wi, n')).
  Proof. intros H1 H2 H. apply smap_ext. intros k. rewrite !mass_get by assumption. rewrite H. reflexivity. Qed.

  Lemma dict_items_ok wids (m : smap Z V) : (forall w, mem w m = true <-> In w wids) ->
    NoDup (map fst (dict_items wids m)) /\ (forall k, rget (dict_items wids m) k = get m k) /\
    forall k, In k (map fst (dict_items wids m)) <-> In k wids.
  Proof.
    intros Hm. unfold dict_items. change (fold_left _ wids []) with (dict_keys wids).
    destruct (dict_keys_spec wids) as [Hn Hk].
    assert (G : forall ks, (forall k, In k ks -> mem k m = true) -> map fst (flat_map (fun wid => match get m wid with Some w => [(wid, w)] | None => [] end) ks) = ks).
    { induction ks as [|k ks IH]; intros H; [reflexivity|]. cbn [flat_map]. destruct (proj1 (mem_get _ _) (H k (or_introl eq_refl))) as [v ->].
      cbn [app map fst]. f_equal. apply IH. intros x Hx. apply H. right. exact Hx. }
    assert (Hd : map fst (flat_map (fun wid => match get m wid with Some w => [(wid, w)] | None => [] end) (dict_keys wids)) = dict_keys wids).
    { apply G. intros k Hkk. apply Hm, Hk, Hkk. }
    rewrite Hd. split; [exact Hn|]. split; [|exact Hk]. intros k.
    assert (G2 : forall ks, rget (flat_map (fun wid => match get m wid with Some w => [(wid, w)] | None => [] end) ks) k =
                  if existsb (eqb k) ks then get m k else None).
    { induction ks as [|x ks IH]; [reflexivity|]. cbn [flat_map existsb]. destruct (eqb k x) eqn:E.
      - apply eqb_eq in E. subst. cbn [orb]. destruct (get m x) eqn:Eg; cbn [app rget]; [rewrite eqb_refl; reflexivity|]. exact IH || (rewrite IH; destruct (existsb (eqb x) ks); reflexivity).
      - cbn [orb]. destruct (get m x) eqn:Eg; cbn [app rget]; [rewrite E|]; exact IH. }
    rewrite G2. destruct (existsb (eqb k) (dict_keys wids)) eqn:E; [reflexivity|].
    destruct (get m k) eqn:Eg; [|reflexivity]. exfalso. assert (Hi : In k (dict_keys wids)) by (apply Hk, Hm, mem_get; eauto).
    assert (existsb (eqb k) (dict_keys wids) = true) by (apply existsb_exists; exists k; split; [exact Hi|apply eqb_refl]). congruence.
  Qed.

  Lemma loop_sim bad ws d (l : list (Z * V)) : fits d = true -> (forall k, In k (map fst l) -> In k ws) ->
    forall lx ix lx' ix' n m, rrel bad (mkSys lx ix) (mkSys lx' ix') ->
    (exists s' n', r_mass_loop fits rnd d l n (mkSys lx ix) = (s', Ok n') /\
       rrel bad s' (mkSys lx' (set_wordinfo (fst (fold_left (mass_step rnd d) l (wordinfo ix', m))) ix'))) \/
    ((exists s', r_mass_loop fits rnd d l n (mkSys lx ix) = (s', Raise TypeError)) /\ exists wid, In wid ws /\ bad wid).
  Proof.
    intros Hd. induction l as [|[w v] l IH]; intros Hin lx ix lx' ix' n m Hr.
    - left. exists (mkSys lx ix), n. split; [reflexivity|]. destruct Hr; constructor; assumption.
    - cbn [r_mass_loop]. unfold sbind, slift. fields.
      destruct (wrel_updated bad w d v _ _ Hd (rr_okp _ _ _ Hr w) (rr_word _ _ _ Hr w)) as [[E Hb]|(p' & E & Hw)]; fields; rewrite E.
      + right. split; [eexists; reflexivity|]. exists w. split; [apply Hin; left; reflexivity|exact Hb].
      + assert (Hq : okp (Some (updated d v (get (wordinfo ix') w)))) by (apply okp_updated; [exact Hd|exact (rr_okp _ _ _ Hr w)]).
        assert (Hr1 : rrel bad (mkSys lx (set_wordinfo (put w p' (wordinfo ix)) ix))
                  (mkSys lx' (set_wordinfo (put w (updated d v (get (wordinfo ix') w)) (wordinfo ix')) ix'))).
        { pose proof (rrel_put bad lx lx' ix ix' w p' _ 0 0 Hr Hw Hq) as H. unfold change_wordCount in H. fields. rewrite !Z.add_0_r in H. exact H. }
        destruct (IH (fun k Hk => Hin k (or_intror Hk)) _ _ _ _ (match get (wordinfo ix) w with None => n + 1 | Some _ => n end)
                   (match get (wordinfo ix') w with None => m + 1 | Some _ => m end) Hr1) as [(s' & n' & E1 & H1)|[E1 H1]].
        * left. exists s', n'. split; [exact E1|]. cbn [fold_left]. unfold mass_step at 2. cbn [fst snd].
          unfold updated, set_wordinfo in *. fields. destruct (get (wordinfo ix') w); exact H1.
        * right. auto.
  Qed.
  Hypothesis freqs_keys : forall wids m w, freqs wids = Ok (m, w) -> forall k, mem k m = true <-> In k wids.
  Lemma sb_mass bad ws wids m w d : fits d = true -> (forall k, In k wids -> In k ws) -> freqs wids = Ok (m, w) ->
    simb bad ws (r_mass_add_wordinfo fits rnd (dict_items wids m) d) (on_ix (mass_add_wordinfo rnd m d)).
  Proof.
    intros Hd Hin Hf [lx ix] [lx' ix'] c' a Hr E. injection E as <- <-. destruct (dict_items_ok wids m (freqs_keys _ _ _ Hf)) as (H1 & H2 & H3).
    unfold r_mass_add_wordinfo, sbind.
    destruct (loop_sim bad ws d (dict_items wids m) Hd (fun k Hk => Hin k (proj1 (H3 k) Hk)) lx ix lx' ix' 0 0 Hr) as [(s' & n' & E1 & Hr')|[[s' E1] Hb]]; rewrite E1.
    - left. eexists. split; [reflexivity|]. rewrite (mass_order d _ (elts m) _ 0 0 H1) in Hr'; [|apply keys_NoDup|exact H2].
      fields. unfold mass_add_wordinfo. destruct (fold_left (mass_step rnd d) (elts m) (wordinfo ix', 0)) as [wi k]. cbn [fst] in Hr'.
      destruct Hr'; constructor; fields; assumption.
    - right. split; [eexists; reflexivity|exact Hb].
  Qed.


  (** ** Calls that use a text *)
  Definition simT {A} bad (t : ltext) (m n : sx (sys V) A) : Prop :=
    forall s c c' a, rrel bad s c -> n c = (c', Ok a) ->
      (exists s', m s = (s', Ok a) /\ rrel bad s' c') \/
      ((exists s', m s = (s', Raise TypeError)) /\
       exists wids wid, snd (sourceToWordIds pipeline t (slx c)) = Ok wids /\ In wid wids /\ bad wid).
  Lemma st_lift {A B} bad t (f g : sys V -> res A) (k k' : A -> sx (sys V) B) :
    (forall s c, rrel bad s c -> f s = g c) -> (forall a, simT bad t (k a) (k' a)) -> simT bad t (sbind (slift f) k) (sbind (slift g) k').
  Proof.
    intros H H1 s c c' a Hr E. unfold sbind, slift in *. rewrite (H s c Hr). destruct (g c) as [x|e]; [|discriminate]. exact (H1 x s c c' a Hr E).
  Qed.
  Lemma st_on {B} bad t f (k k' : unit -> sx (sys V) B) :
    (forall lx ix ix', rrel bad (mkSys lx ix) (mkSys lx ix') -> rrel bad (mkSys lx (f ix)) (mkSys lx (f ix'))) ->
    simT bad t (k tt) (k' tt) -> simT bad t (sbind (on_ix f) k) (sbind (on_ix f) k').
  Proof.
    intros H H1 [lx ix] [lx' ix'] c' a Hr E. assert (lx = lx') as -> by exact (rr_lx _ _ _ Hr).
    exact (H1 (mkSys lx' (f ix)) (mkSys lx' (f ix')) c' a (H _ _ _ Hr) E).
  Qed.
  Lemma st_src {B} bad t (k k' : list Z -> sx (sys V) B) : (forall wids, simb bad wids (k wids) (k' wids)) ->
    simT bad t (sbind (source pipeline t) k) (sbind (source pipeline t) k').
  Proof.
    intros H [lx ix] [lx' ix'] c' a Hr E. assert (lx = lx') as -> by exact (rr_lx _ _ _ Hr). unfold sbind, source in *. cbn [slx six] in *.
    destruct (sourceToWordIds pipeline t lx') as [lx2 [wids|e]]; [|discriminate].
    assert (Hr1 : rrel bad (mkSys lx2 ix) (mkSys lx2 ix')) by (destruct Hr; constructor; try assumption; reflexivity).
    destruct (H wids _ _ _ _ Hr1 E) as [H1|[H1 (wid & H2)]]; [left; exact H1|right]. split; [exact H1|]. exists wids, wid. split; [reflexivity|exact H2].
  Qed.
  Lemma st_after {A B} bad t (m n : sx (sys V) A) (k k' : A -> sx (sys V) B) : simT bad t m n -> (forall a, simb bad [] (k a) (k' a)) ->
    simT bad t (sbind m k) (sbind n k').
  Proof.
    intros H H1 s c c' b Hr E. unfold sbind in *. destruct (n c) as [c1 [a|e]] eqn:En; [|discriminate].
    destruct (H _ _ _ _ Hr En) as [(s1 & -> & Hr1)|[(s1 & ->) Hb]]; [|right; split; [exists s1; reflexivity|exact Hb]].
    destruct (H1 a _ _ _ _ Hr1 E) as [H2|[_ (wid & [] & _)]]. left. exact H2.
  Qed.

  Lemma st_reindex bad d t : fits d = true ->
    simT bad t (r_reindex fits rnd veqb freqs d (source pipeline t)) (base_reindex_with rnd veqb freqs d (source pipeline t)).
  Proof.
    intros Hd. unfold r_reindex, base_reindex_with. apply st_lift; [intros s c Hr; unfold get_words; rewrite (rr_do _ _ _ Hr); reflexivity|]. intros ow.
    apply st_lift; [reflexivity|]. intros [ow2w ?]. apply st_src. intros nw.
    intros s c c' a Hr E. unfold sbind at 1 in E. unfold slift at 1 in E. unfold sbind at 1. unfold slift at 1. destruct (freqs nw) as [[nw2w ndw]|e] eqn:Ef; [|discriminate].
    pose proof (freqs_keys _ _ _ Ef) as Hk. cbv zeta in E |- *.
    assert (Hin : forall wid, In wid (keys nw2w) -> In wid nw).
    { intros wid Hw. apply Hk. apply keys_In in Hw. apply mem_get. exact Hw. }
    revert s c c' a Hr E. refine (sb_bind bad _ _ _ _ _ _ _); [apply sb_iter; intros wid _; apply sb_del, Hd|]. intros _.
    apply sb_bind.
    { apply sb_iter. intros wid Hw. apply sb_bind; [apply sb_const|]. intros w. apply sb_add; [exact Hd|]. apply Hin.
      apply selems_In in Hw. rewrite mem_mdiff in Hw. apply andb_true_iff in Hw as [Hw _]. apply mem_set_of_list_In in Hw. exact Hw. }
    intros _. apply sb_bind.
    { apply sb_iter. intros wid Hw. apply sb_bind; [apply sb_const|]. intros x. apply sb_bind; [apply sb_const|]. intros y.
      destruct (negb (veqb y x)); [|apply sb_ret]. apply sb_add; [exact Hd|]. apply Hin.
      apply selems_In in Hw. rewrite mem_sinter in Hw. apply andb_true_iff in Hw as [_ Hw]. apply mem_set_of_list_In in Hw. exact Hw. }
    intros _. apply sb_bind; [apply sb_docweight, Hd|]. intros _. apply sb_bind; [apply sb_const|]. intros code.
    apply sb_bind; [apply sb_docwords, Hd|]. intros _. apply sb_ret.
  Qed.
  Lemma rr_has bad s c d : rrel bad s c -> r_has_doc fits (six s) d = has_doc (six c) d.
  Proof.
    intros Hr. unfold r_has_doc, has_doc. rewrite (rr_do _ _ _ Hr). destruct (fits d) eqn:E; [reflexivity|].
    destruct (mem d (docwords (six c))) eqn:Em; [|reflexivity]. rewrite (rr_fit _ _ _ Hr _ Em) in E. discriminate.
  Qed.
  Lemma st_index bad re re' d t : fits d = true -> simT bad t (re d (source pipeline t)) (re' d (source pipeline t)) ->
    simT bad t (r_base_index_doc fits rnd freqs re d (source pipeline t)) (base_index_doc_with rnd freqs re' d (source pipeline t)).
  Proof.
    intros Hd Hre s c c' a Hr E. unfold r_base_index_doc, base_index_doc_with in *. rewrite (rr_has _ _ _ d Hr).
    destruct (has_doc (six c) d); [exact (Hre s c c' a Hr E)|]. revert s c c' a Hr E. apply st_src. intros wids.
    intros s c c' a Hr E. unfold sbind at 1 in E. unfold slift at 1 in E. unfold sbind at 1. unfold slift at 1. destruct (freqs wids) as [[m w]|e] eqn:Ef; [|discriminate].
    revert s c c' a Hr E. refine (sb_bind bad _ _ _ _ _ _ _); [apply (sb_mass bad wids wids m w d Hd (fun k H => H) Ef)|]. intros _.
    apply sb_bind; [apply sb_docweight, Hd|]. intros _. apply sb_bind; [apply sb_const|]. intros code.
    apply sb_bind; [apply sb_docwords, Hd|]. intros _. apply sb_bind; [apply sb_docCount|]. intros _. apply sb_ret.
  Qed.
  Lemma sb_delitem_words bad ws d : simb bad ws (delitem docwords set_docwords d) (delitem docwords set_docwords d).
  Proof.
    unfold delitem. apply sb_bind; [apply sb_lift; intros s c Hr; rewrite (rr_do _ _ _ Hr); reflexivity|]. intros _. apply sb_on.
    intros lx ix ix' [? ? H3 ? ? Hf ? ?]. fields. constructor; fields; try assumption; [rewrite H3; reflexivity|apply all_fit_del, Hf].
  Qed.
  Lemma sb_delitem_weight bad ws d : simb bad ws (delitem docweight set_docweight d) (delitem docweight set_docweight d).
  Proof.
    unfold delitem. apply sb_bind; [apply sb_lift; intros s c Hr; rewrite (rr_dw _ _ _ Hr); reflexivity|]. intros _. apply sb_on.
    intros lx ix ix' [? H3 ? ? ? Hf ? ?]. fields. constructor; fields; try assumption. rewrite H3; reflexivity.
  Qed.
  Lemma sb_unindex bad d : simb bad [] (r_base_unindex_doc fits d) (base_unindex_doc d).
  Proof.
    intros s c c' a Hr E. unfold r_base_unindex_doc. rewrite (rr_has _ _ _ d Hr). unfold base_unindex_doc in *.
    destruct (has_doc (six c) d) eqn:Eh; cbn [negb] in *.
    - assert (Hd : fits d = true) by exact (rr_fit _ _ _ Hr _ Eh). assert (Ehs : has_doc (six s) d = true) by (unfold has_doc; rewrite (rr_do _ _ _ Hr); exact Eh).
      rewrite Ehs. cbn [negb]. clear Eh Ehs. revert s c c' a Hr E.
      apply sb_bind; [apply sb_get_words|]. intros wids. apply sb_bind; [apply sb_iter; intros wid _; apply sb_del, Hd|]. intros _.
      apply sb_bind; [apply sb_delitem_words|]. intros _. apply sb_bind; [apply sb_delitem_weight|]. intros _. apply sb_docCount.
    - injection E as <- <-. left. exists s. auto.
  Qed.
  Lemma clear_rr bad bad' s c : rrel bad s c -> rrel bad' (fst (clear s)) (fst (clear c)).
  Proof.
    intros [? ? ? ? H5 ? ? ?]. constructor; cbn; try assumption; try reflexivity.
    - apply all_fit_empty.
    - intros wid q E. discriminate.
    - intros wid. left. reflexivity.
  Qed.
  Lemma lex_rr bad s c o : rrel bad s c ->
    rrel bad (mkSys (lex_step pipeline (slx s) o) (six s)) (mkSys (lex_step pipeline (slx c) o) (six c)).
  Proof. intros [H1 ? ? ? ? ? ? ?]. constructor; try assumption. cbn [slx]. rewrite H1. reflexivity. Qed.

  (** ** Calls that are refused *)
  Lemma loop_bad (P : Z -> Prop) d (l : list (Z * V)) : fits d = false -> (forall k, In k (map fst l) -> P k) ->
    forall s c n, rrel P s c -> exists s' r, r_mass_loop fits rnd d l n s = (s', r) /\ rrel P s' c /\
      (forall e, r = Raise e -> e = TypeError).
  Proof.
    intros Hd. induction l as [|[w v] l IH]; intros Hin [lx ix] c n Hr; cbn [r_mass_loop].
    - exists (mkSys lx ix), (Ok n). split; [reflexivity|]. split; [exact Hr|]. intros e; discriminate.
    - unfold sbind, slift. fields.
      assert (Hab : get (wordinfo ix) w = get (wordinfo (six c)) w \/ exists p, get (wordinfo ix) w = Some p /\ spoilt p (get (wordinfo (six c)) w)).
      { destruct (rr_word _ _ _ Hr w) as [E|[_ E]]; auto. }
      destruct (r_updated_bad d v _ _ Hd (rr_okp _ _ _ Hr w) Hab) as [E|(p' & E & Hp)]; fields; rewrite E.
      + eexists _, _. split; [reflexivity|]. split; [exact Hr|]. intros e [= <-]. reflexivity.
      + apply IH; [intros k Hk; apply Hin; right; exact Hk|]. destruct Hr as [? ? ? ? ? ? Ho Hw]. constructor; fields; try assumption.
        intros k. rewrite get_put. destruct (eqb k w) eqn:Ek; [|apply Hw]. apply eqb_eq in Ek. subst. right. split; [apply Hin; left; reflexivity|eauto].
  Qed.
  Lemma index_bad bad re d t s c : fits d = false -> bij (slx c) -> (forall wids, exists mw, freqs wids = Ok mw) -> rrel bad s c ->
    exists s', r_base_index_doc fits rnd freqs re d (source pipeline t) s = (s', Raise TypeError) /\
      rrel (fun wid => bad wid \/ exists w, In w (text_words pipeline t) /\ get (lwids (lex_step pipeline (slx c) (LText t))) w = Some wid)
        s' (mkSys (lex_step pipeline (slx c) (LText t)) (six c)).
  Proof.
    intros Hd Hb Hf Hr. unfold r_base_index_doc, r_has_doc. rewrite Hd. cbn [andb]. unfold sbind at 1. unfold source. rewrite (rr_lx _ _ _ Hr).
    destruct (source_spec pipeline t (slx c) Hb) as (E & Hb' & Hg & Hk). rewrite E. clear E.
    set (lx' := lex_step pipeline (slx c) (LText t)) in *.
    set (wids := ids lx' (text_words pipeline t)) in *. destruct (Hf wids) as [[m w] Ef]. unfold sbind at 1. unfold slift at 1. rewrite Ef.
    unfold r_mass_add_wordinfo, sbind at 1 2.
    set (P := fun wid => bad wid \/ exists w, In w (text_words pipeline t) /\ get (lwids lx') w = Some wid).
    destruct (dict_items_ok wids m (freqs_keys _ _ _ Ef)) as (_ & _ & H3).
    destruct (loop_bad P d (dict_items wids m) Hd) with (s := mkSys lx' (six s)) (c := mkSys lx' (six c)) (n := 0) as (s' & r & E1 & Hr1 & He).
    - intros k Hkk. apply H3 in Hkk. right. unfold wids, ids in Hkk. apply in_map_iff in Hkk as (x & <- & Hx). exists x. split; [exact Hx|].
      destruct (Hk x Hx) as [i Hi]. unfold get_wid. rewrite Hi. reflexivity.
    - apply rrel_mono with (bad := bad); [intros wid H; left; exact H|]. destruct Hr; constructor; try assumption; reflexivity.
    - rewrite E1. destruct r as [n|e].
      + fields. unfold r_put_docweight. rewrite Hd. unfold sbind, slift. eexists. split; [reflexivity|]. destruct Hr1; constructor; fields; assumption.
      + rewrite (He e eq_refl). eexists. split; [reflexivity|exact Hr1].
  Qed.
End Sim.

Lemma lex_hist_without fits h : lex_hist (without_refused fits h) = lex_hist h.
Proof.
  unfold lex_hist, without_refused. induction h as [|o h IH]; [reflexivity|]. cbn [map flat_map]. rewrite IH. f_equal.
  destruct o as [d t| | |]; try reflexivity. destruct (fits d); reflexivity.
Qed.
Lemma history_without fits pipeline h : history_ok pipeline h -> history_ok pipeline (without_refused fits h).
Proof. unfold history_ok. rewrite lex_hist_without. auto. Qed.
Lemma siter_snoc {S A} (f : A -> sx S unit) l x s : siter f (l ++ [x]) s = sbind (siter f l) (fun _ => f x) s.
Proof.
  revert s. induction l as [|y l IH]; intros s.
  - cbn [app siter]. unfold sbind, sret. destruct (f x s) as [s1 [[]|e]]; reflexivity.
  - cbn [app siter]. unfold sbind at 1 2 3. destruct (f y s) as [s1 [u|e]]; [|reflexivity]. rewrite IH. reflexivity.
Qed.

Section Hist.
  Variable fits : Z -> bool.
  Context {V : Type}.
  Variable pipeline : list elem.
  Variables ri ci : Z -> ltext -> sx (sys V) Z.
  Variables ru cu : Z -> sx (sys V) unit.
  Local Notation rstep := (op_step pipeline ri ru).
  Local Notation rstate h := (r_fold rstep h).
  Local Notation cstep := (op_step pipeline ci cu).
  Local Notation cstate h := (fst (run_ops pipeline ci cu h)).
  Hypothesis c_ok : forall h, history_ok pipeline h -> snd (run_ops pipeline ci cu h) = Ok tt /\ slx (cstate h) = lex_run pipeline (lex_hist h).
  Hypothesis i_sim : forall bad d t, fits d = true -> simT fits pipeline bad t (ri d t) (ci d t).
  Hypothesis i_bad : forall bad d t s c, fits d = false -> bij (slx c) -> rrel fits bad s c ->
    exists s', ri d t s = (s', Raise TypeError) /\
      rrel fits (fun wid => bad wid \/ exists w, In w (text_words pipeline t) /\ get (lwids (lex_step pipeline (slx c) (LText t))) w = Some wid)
        s' (mkSys (lex_step pipeline (slx c) (LText t)) (six c)).
  Hypothesis u_sim : forall bad d, simb fits bad [] (ru d) (cu d).

  Definition badh (h : list top) (lx : lex) (wid : Z) : Prop := exists w, In w (refused_words fits pipeline h) /\ get (lwids lx) w = Some wid.
  Definition without1 (o : top) : top := match o with TIndex d t => if fits d then o else TOther (LText t) | _ => o end.
  Lemma history_app1 h h' : history_ok pipeline (h ++ h') -> history_ok pipeline h.
  Proof.
    intros [H1 H2]. unfold history_ok. rewrite lex_hist_app in *. assert (Hc : counter_ok (lex_hist h)).
    { intros n Hn. apply H1. apply in_or_app. left. exact Hn. }
    split; [exact Hc|]. intros i Hi. apply H2. unfold lex_wids in *. apply keys_In in Hi as [w Hi]. apply keys_In. exists w.
    assert (Hb : bij (lex_run pipeline (lex_hist h))) by (apply lex_run_bij, Hc).
    unfold lex_run in *. rewrite fold_left_app. destruct (lex_fold_ok pipeline (lex_hist h') _ Hb) as (_ & Hg).
    - intros n Hn. apply H1. apply in_or_app. right. exact Hn.
    - apply Hg, Hi.
  Qed.
  Lemma cstate_snoc h o : history_ok pipeline (h ++ [o]) -> cstep o (cstate h) = (cstate (h ++ [o]), Ok tt).
  Proof.
    intros H. destruct (c_ok _ H) as [H1 _]. destruct (c_ok _ (history_app1 _ _ H)) as [H2 _]. unfold run_ops in *.
    rewrite siter_snoc in *. unfold sbind in *. destruct (siter cstep h (mkSys lex_new ix_new)) as [c [u|e]]; [|discriminate]. cbn [fst snd] in *.
    destruct (cstep o c) as [c' r]. cbn [fst snd] in *. subst. reflexivity.
  Qed.
  Lemma rstate_snoc h o : rstate (h ++ [o]) = fst (rstep o (rstate h)).
  Proof. unfold r_fold. rewrite fold_left_app. reflexivity. Qed.
  Lemma without_snoc h o : without_refused fits (h ++ [o]) = without_refused fits h ++ [without1 o].
  Proof. unfold without_refused. rewrite map_app. reflexivity. Qed.
  Lemma refused_words_snoc h o : refused_words fits pipeline (h ++ [o]) =
    match o with TIndex d t => if fits d then refused_words fits pipeline h else refused_words fits pipeline h ++ text_words pipeline t
               | TClear => [] | _ => refused_words fits pipeline h end.
  Proof. unfold refused_words. rewrite fold_left_app. reflexivity. Qed.
  Lemma cstate_bij h : history_ok pipeline h -> bij (slx (cstate h)).
  Proof. intros H. rewrite (proj2 (c_ok h H)). apply lex_run_bij, H. Qed.

  Definition R (h : list top) (s c : sys V) : Prop := rrel fits (badh h (slx c)) s c.
  Lemma step_ok h o : history_ok pipeline (h ++ [o]) ->
    let s := rstate h in let c := cstate (without_refused fits h) in
    R h s c ->
    if refused fits o then snd (rstep o s) = Raise TypeError /\ R (h ++ [o]) (rstate (h ++ [o])) (cstate (without_refused fits (h ++ [o])))
    else (snd (rstep o s) = Ok tt /\ R (h ++ [o]) (rstate (h ++ [o])) (cstate (without_refused fits (h ++ [o])))) \/
         (snd (rstep o s) = Raise TypeError /\ exists d t w, o = TIndex d t /\ In w (text_words pipeline t) /\ In w (refused_words fits pipeline h)).
  Proof.
    intros Hh s c Hr. pose proof (history_without fits _ _ Hh) as Hw. rewrite without_snoc in Hw.
    pose proof (cstate_snoc _ _ Hw) as Hc. pose proof (cstate_bij _ (history_app1 _ _ Hw)) as Hb.
    rewrite without_snoc, rstate_snoc. fold s. fold c in Hc, Hb. set (c' := cstate (without_refused fits h ++ [without1 o])) in *.
    assert (Hgr : grows (slx c) (slx c')).
    { destruct (c_ok _ Hw) as [_ E]. fold c' in E. destruct (c_ok _ (history_app1 _ _ Hw)) as [_ E0]. fold c in E0. rewrite E, E0, lex_hist_app.
      assert (Hcc : counter_ok (lex_hist (without_refused fits h) ++ lex_hist [without1 o])) by (rewrite <- lex_hist_app; apply Hw).
      unfold lex_run. rewrite fold_left_app. destruct (lex_fold_ok pipeline (lex_hist [without1 o]) (lex_run pipeline (lex_hist (without_refused fits h)))) as (_ & Hg).
      - rewrite <- E0. exact Hb.
      - intros n Hn. apply Hcc, in_or_app. right. exact Hn.
      - exact Hg. }
    assert (Hmono : (forall w, In w (refused_words fits pipeline h) -> In w (refused_words fits pipeline (h ++ [o]))) ->
      forall wid, badh h (slx c) wid -> badh (h ++ [o]) (slx c') wid).
    { intros H wid (w & H1 & H2). exists w. split; [apply H, H1|apply Hgr, H2]. }
    destruct o as [d t|d| |lo]; cbn [refused without1] in *.
    - destruct (fits d) eqn:Hd; cbn [negb].
      + unfold op_step in Hc |- *. unfold sbind in *. destruct (ci d t c) as [c1 [a|e]] eqn:Ec; [|discriminate].
        assert (c1 = c') by (unfold sret in Hc; congruence). subst c1.
        destruct (i_sim _ d t Hd s c c' a Hr Ec) as [(s' & E & Hr')|[(s' & E) (wids & wid & H1 & H2 & H3)]]; rewrite E; [left|right].
        * split; [reflexivity|]. cbn [fst sret]. unfold R. eapply rrel_mono; [|exact Hr']. apply Hmono. rewrite refused_words_snoc, Hd. auto.
        * split; [reflexivity|]. destruct (source_spec pipeline t (slx c) Hb) as (Es & Hb' & Hg & Hk). rewrite Es in H1. cbn [snd] in H1.
          injection H1 as <-. apply in_map_iff in H2 as (w & <- & Hin). destruct H3 as (w' & Hw' & Ew'). exists d, t, w. split; [reflexivity|]. split; [exact Hin|].
          assert (w' = w) as <-; [|exact Hw']. destruct (Hk w Hin) as [i Hi]. rewrite Es in Ew'. unfold get_wid in Ew'. cbn [fst] in Ew'. rewrite Hi in Ew'. apply Hg in Ew'.
          destruct Hb' as (Hb1 & _ & _). apply Hb1 in Ew', Hi. congruence.
      + destruct (i_bad _ d t s c Hd Hb Hr) as (s' & E & Hr'). unfold op_step, sbind in *. rewrite E. split; [reflexivity|]. cbn [fst].
        cbn [smod] in Hc. unfold smod in Hc. assert (Ec : c' = mkSys (lex_step pipeline (slx c) (LText t)) (six c)) by congruence. rewrite <- Ec in Hr'.
        unfold R. eapply rrel_mono; [|exact Hr']. intros wid [H|(w & H1 & H2)].
        * revert H. apply Hmono. rewrite refused_words_snoc, Hd. intros w Hin. apply in_or_app. left. exact Hin.
        * exists w. split; [rewrite refused_words_snoc, Hd; apply in_or_app; right; exact H1|]. rewrite Ec. exact H2.
    - left. cbn [op_step] in *. destruct (u_sim _ d s c c' tt Hr Hc) as [(s' & E & Hr')|[_ (wid & [] & _)]]. rewrite E. split; [reflexivity|].
      cbn [fst]. unfold R. eapply rrel_mono; [|exact Hr']. apply Hmono. rewrite refused_words_snoc. auto.
    - left. cbn [op_step] in *. split; [reflexivity|]. replace c' with (fst (clear c)) by (rewrite Hc; reflexivity). unfold R. exact (clear_rr fits _ _ _ _ Hr).
    - left. cbn [op_step smod] in *. unfold smod in *. split; [reflexivity|]. cbn [fst].
      assert (Ec : c' = mkSys (lex_step pipeline (slx c) lo) (six c)) by congruence. unfold R. eapply rrel_mono; [|rewrite Ec; exact (lex_rr fits pipeline _ _ _ lo Hr)].
      apply Hmono. rewrite refused_words_snoc. auto.
  Qed.
  Lemma start_ok : R [] (rstate []) (cstate []).
  Proof.
    constructor; cbn; try reflexivity; [apply all_fit_empty|intros wid q E; discriminate|intros wid; left; reflexivity].
  Qed.
  Lemma run_rel h : history_ok pipeline h -> others_fine fits rstep h -> R h (rstate h) (cstate (without_refused fits h)).
  Proof.
    induction h as [|o h IH] using rev_ind; intros Hh Ho; [exact start_ok|].
    assert (Hr : R h (rstate h) (cstate (without_refused fits h))).
    { apply IH; [exact (history_app1 _ _ Hh)|]. intros h1 o' h2 E. apply (Ho h1 o' (h2 ++ [o])). rewrite E, <- app_assoc. reflexivity. }
    pose proof (step_ok h o Hh Hr) as H. pose proof (Ho h o [] eq_refl) as Hfine. destruct (refused fits o); [apply H|].
    destruct H as [H|[H _]]; [apply H|]. rewrite Hfine in H by reflexivity. discriminate.
  Qed.
  Lemma results h o : history_ok pipeline (h ++ [o]) -> others_fine fits rstep h ->
    if refused fits o then snd (rstep o (rstate h)) = Raise TypeError
    else snd (rstep o (rstate h)) = Ok tt \/
         (snd (rstep o (rstate h)) = Raise TypeError /\ exists d t w, o = TIndex d t /\ In w (text_words pipeline t) /\ In w (refused_words fits pipeline h)).
  Proof.
    intros Hh Ho. pose proof (step_ok h o Hh (run_rel h (history_app1 _ _ Hh) Ho)) as H. destruct (refused fits o); [apply H|]. tauto.
  Qed.
  Lemma apart_fine h : history_ok pipeline h -> apart fits pipeline h -> others_fine fits rstep h.
  Proof.
    induction h as [|o h IH] using rev_ind; intros Hh Ha; [intros [|] ? ? E; discriminate|].
    assert (Ho : others_fine fits rstep h).
    { apply IH; [exact (history_app1 _ _ Hh)|]. intros h1 d t h2 w E. apply (Ha h1 d t (h2 ++ [o]) w). rewrite E, <- app_assoc. reflexivity. }
    intros h1 o' h2 E Hf. destruct h2 as [|o2 h2] using rev_ind.
    - apply app_inj_tail in E as [-> ->]. pose proof (results h1 o' Hh Ho) as H. rewrite Hf in H. destruct H as [H|[_ (d & t & w & -> & H1 & H2)]]; [exact H|].
      destruct (Ha h1 d t [] w eq_refl); [|exact H1|exact H2]. cbn in Hf. destruct (fits d); [reflexivity|discriminate].
    - clear IHh2. rewrite app_comm_cons, app_assoc in E. apply app_inj_tail in E as [-> _]. exact (Ho h1 o' h2 eq_refl Hf).
  Qed.
End Hist.

(** ** Searches for other words *)
Section Answers.
  Variable fits : Z -> bool.
  Context {V : Type}.
  Variable pipeline : list elem.
  Context {F : Type} {AF : Arith F}.
  Definition agree (wids : list Z) (ix ix' : bindex V) : Prop :=
    docweight ix = docweight ix' /\ docwords ix = docwords ix' /\ documentCount ix = documentCount ix' /\ totaldoclen ix = totaldoclen ix' /\
    (forall wid, okp fits (get (wordinfo ix') wid)) /\ forall wid, In wid wids -> get (wordinfo ix) wid = get (wordinfo ix') wid.
  Variables sw sw' : bindex V -> list Z -> res (list (smap Z F * F)).
  Hypothesis sw_agree : forall wids ix ix', agree wids ix ix' -> sw ix wids = sw' ix' wids.

  Lemma agree_sub wids wids' ix ix' : (forall x, In x wids' -> In x wids) -> agree wids ix ix' -> agree wids' ix ix'.
  Proof. intros H (H1 & H2 & H3 & H4 & H5 & H6). unfold agree. auto 10. Qed.
  Lemma oov_agree wids ix ix' : agree wids ix ix' -> remove_oov ix wids = remove_oov ix' wids.
  Proof.
    intros (_ & _ & _ & _ & _ & H). unfold remove_oov. induction wids as [|x l IH]; [reflexivity|]. cbn [filter].
    rewrite IH by (intros y Hy; apply H; right; exact Hy). assert (E : mem x (wordinfo ix) = mem x (wordinfo ix')) by (unfold mem; rewrite (H x (or_introl eq_refl)); reflexivity).
    rewrite E. reflexivity.
  Qed.
  Lemma oov_sub (ix : bindex V) wids x : In x (remove_oov ix wids) -> In x wids.
  Proof. intros H. apply filter_In in H. apply H. Qed.
  Lemma phrase_loop_agree (ix ix' : bindex V) code (hits : list (Z * F)) r : docwords ix = docwords ix' -> phrase_loop ix code hits r = phrase_loop ix' code hits r.
  Proof. intros E. revert r. induction hits as [|[d v] l IH]; intros r; [reflexivity|]. cbn [phrase_loop]. rewrite E. destruct (item (docwords ix') d); [cbn [bind]; apply IH|reflexivity]. Qed.

  Section One.
    Variables (h : list top) (s c : sys V).
    Hypothesis Hb : bij (slx c).
    Hypothesis HR : R fits pipeline h s c.
    Lemma agree_wids wids : (forall wid w, In wid wids -> get (lwids (slx c)) w = Some wid -> ~ In w (refused_words fits pipeline h)) -> agree wids (six s) (six c).
    Proof.
      intros H. destruct HR. split; [assumption|]. split; [assumption|]. split; [assumption|]. split; [assumption|]. split; [assumption|].
      intros wid Hin. destruct (rr_word0 wid) as [E|[(w & Hw & Ew) _]]; [exact E|]. destruct (H wid w Hin Ew Hw).
    Qed.
    Lemma agree_term t : (forall w, In w (text_words pipeline t) -> ~ In w (refused_words fits pipeline h)) -> agree (termToWordIds pipeline t (slx c)) (six s) (six c).
    Proof.
      intros H. apply agree_wids. intros wid w Hin Ew. unfold termToWordIds in Hin. apply in_map_iff in Hin as (w' & E & Hin).
      destruct Hb as (H1 & H2 & _). apply H1 in Ew. unfold get_wid in E. destruct (get (lwids (slx c)) w') as [i|] eqn:E'.
      - subst i. apply H1 in E'. assert (w = w') by congruence. subst. apply H. exact Hin.
      - subst wid. apply H2 in Ew. lia.
    Qed.
    Lemma search_agree t : (forall w, In w (text_words pipeline t) -> ~ In w (refused_words fits pipeline h)) -> search pipeline sw s t = search pipeline sw' c t.
    Proof.
      intros H. pose proof (agree_term t H) as Ha. unfold search. rewrite (rr_lx _ _ _ _ HR).
      destruct (termToWordIds pipeline t (slx c)) as [|x l]; [reflexivity|]. rewrite (oov_agree _ _ _ Ha).
      rewrite (sw_agree _ (six s) (six c)); [reflexivity|]. eapply agree_sub; [|exact Ha]. apply oov_sub.
    Qed.
    Lemma phrase_agree t : (forall w, In w (text_words pipeline t) -> ~ In w (refused_words fits pipeline h)) -> search_phrase pipeline sw s t = search_phrase pipeline sw' c t.
    Proof.
      intros H. pose proof (agree_term t H) as Ha. unfold search_phrase. rewrite (rr_lx _ _ _ _ HR), (oov_agree _ _ _ Ha), (sw_agree _ _ _ Ha).
      destruct (negb _); [reflexivity|]. destruct (sw' (six c) _); [|reflexivity]. cbn [bind]. destruct (mass_weightedIntersection _); [|reflexivity]. cbn [bind].
      destruct (is_empty _); [reflexivity|]. destruct (encode _); [|reflexivity]. cbn [bind]. apply phrase_loop_agree, Ha.
    Qed.
    Lemma glob_agree p : (forall wids w, globToWordIds p (slx s) = Ok wids -> In w (refused_words fits pipeline h) -> ~ In (get_wid (slx s) w) wids) ->
      search_glob sw s p = search_glob sw' c p.
    Proof.
      intros H. rewrite (rr_lx _ _ _ _ HR) in H. unfold search_glob. rewrite (rr_lx _ _ _ _ HR).
      destruct (globToWordIds p (slx c)) as [wids|e] eqn:E; [|reflexivity]. cbn [bind].
      assert (Ha : agree wids (six s) (six c)).
      { apply agree_wids. intros wid w Hin Ew Hw. apply (H wids w eq_refl Hw). unfold get_wid. rewrite Ew. exact Hin. }
      rewrite (oov_agree _ _ _ Ha), (sw_agree _ (six s) (six c)); [reflexivity|]. eapply agree_sub; [|exact Ha]. apply oov_sub.
    Qed.
  End One.
End Answers.

Lemma mapM_ext_in {A B} (f g : A -> res B) l : (forall x, In x l -> f x = g x) -> mapM f l = mapM g l.
Proof.
  induction l as [|x l IH]; intros H; [reflexivity|]. cbn [mapM]. rewrite (H x (or_introl eq_refl)), IH; [reflexivity|]. intros y Hy. apply H. right. exact Hy.
Qed.
Lemma python_agree fits {F} {AF : Arith F} (K1 B : F) wids ix ix' : agree fits wids ix ix' -> python_search_wids K1 B ix wids = python_search_wids K1 B ix' wids.
Proof.
  intros (H1 & H2 & H3 & H4 & _ & H5). unfold python_search_wids, mean_doc_len. rewrite H3, H4. destruct wids as [|x l]; [reflexivity|].
  destruct (py_div _ _) as [m|e]; [|reflexivity]. cbn [bind]. apply mapM_ext_in. intros y Hy. unfold py_search_wid, item. rewrite (H5 y Hy), H1, H3. reflexivity.
Qed.
Lemma c_agree fits {F} {AF : Arith F} (K1 B : F) wids ix ix' : agree fits wids ix ix' -> c_search_wids K1 B ix wids = c_search_wids K1 B ix' wids.
Proof.
  intros (H1 & H2 & H3 & H4 & _ & H5). unfold c_search_wids, mean_doc_len. rewrite H3, H4. destruct wids as [|x l]; [reflexivity|].
  destruct (py_div _ _) as [m|e]; [|reflexivity]. cbn [bind]. apply mapM_ext_in. intros y Hy. unfold c_search_wid, item. rewrite (H5 y Hy), H1, H3. reflexivity.
Qed.
Lemma cos_agree fits {F} {AF : Arith F} wids ix ix' : agree fits wids ix ix' -> r_cos_search_wids fits ix wids = cos_search_wids (F := F) ix' wids.
Proof.
  intros (H1 & H2 & H3 & H4 & Ho & H5). unfold r_cos_search_wids, cos_search_wids. apply mapM_ext_in. intros y Hy. unfold r_cos_search_wid, cos_search_wid, item, mem.
  rewrite (H5 y Hy), H1. destruct (get (wordinfo ix') y) as [p|] eqn:E; [|reflexivity]. cbn [negb bind].
  destruct (inverse_doc_frequency _ _) as [i|e]; [|reflexivity]. cbn [bind]. destruct (Ho y p E) as [Hf _]. rewrite (proj2 (all_fit_forallb fits _) Hf).
  rewrite andb_false_r. reflexivity.
Qed.

(** ** Words of refused texts *)
Section Poison.
  Variable fits : Z -> bool.
  Context {V : Type}.
  Variable rnd : V -> V.
  Variable veqb : V -> V -> bool.
  Variable freqs : list Z -> res (smap Z V * V).
  Variable pipeline : list elem.

  Definition poison (ix : bindex V) (wid : Z) : Prop :=
    exists p d, get (wordinfo ix) wid = Some p /\ p_dict p = true /\ mem d (p_map p) = true /\ fits d = false.
  (** [ow]: a word, and its id, that is poisoned *)
  Definition J (ow : option (str * Z)) (s : sys V) : Prop :=
    bij (slx s) /\ all_fit fits (docweight (six s)) /\
    match ow with None => True | Some (w, wid) => get (lwids (slx s)) w = Some wid /\ poison (six s) wid end.
  Definition keeps {A} (ow : option (str * Z)) (m : sx (sys V) A) : Prop := forall s, J ow s -> J ow (fst (m s)).
  Lemma k_ret {A} ow (a : A) : keeps ow (sret a).
  Proof. intros s H. exact H. Qed.
  Lemma k_bind {A B} ow (m : sx (sys V) A) (f : A -> sx (sys V) B) : keeps ow m -> (forall a, keeps ow (f a)) -> keeps ow (sbind m f).
  Proof. intros H1 H2 s H. unfold sbind. specialize (H1 s H). destruct (m s) as [s1 [a|e]]; [apply H2|]; exact H1. Qed.
  Lemma k_lift {A} ow (f : sys V -> res A) : keeps ow (slift f).
  Proof. intros s H. exact H. Qed.
  Lemma k_iter {A} ow (f : A -> sx (sys V) unit) l : (forall x, keeps ow (f x)) -> keeps ow (siter f l).
  Proof. intros H. induction l; cbn [siter]; [apply k_ret|]. apply k_bind; [apply H|intros _; assumption]. Qed.
  Lemma k_on ow (f : bindex V -> bindex V) : (forall ix, wordinfo (f ix) = wordinfo ix) -> (forall ix, all_fit fits (docweight ix) -> all_fit fits (docweight (f ix))) -> keeps ow (on_ix f).
  Proof.
    intros H1 H2 [lx ix] (Ha & Hb & Hc). change (J ow (mkSys lx (f ix))). split; [exact Ha|]. split; [apply H2, Hb|]. destruct ow as [[w wid]|]; [|exact Hc].
    destruct Hc as [Hc Hd]. fields. split; [exact Hc|]. unfold poison in *. rewrite H1. exact Hd.
  Qed.
  Lemma k_source ow t : keeps ow (source pipeline t).
  Proof.
    intros [lx ix] (Ha & Hb & Hc). unfold source. cbn [slx six] in *. destruct (source_spec pipeline t lx Ha) as (E & H1 & H2 & _). rewrite E. cbn [fst].
    split; [exact H1|]. split; [exact Hb|]. destruct ow as [[w wid]|]; [|exact Hc]. cbn [slx six]. split; [apply H2|]; apply Hc.
  Qed.
  Lemma r_updated_keeps d f p q d' : p_dict p = true -> mem d' (p_map p) = true -> fits d' = false -> r_updated fits rnd d f (Some p) = Ok q ->
    p_dict q = true /\ mem d' (p_map q) = true.
  Proof.
    intros Hp Hm Hf. unfold r_updated, r_convert. rewrite Hp. cbn [andb]. destruct (Zsize (p_map p) =? DICT_CUTOFF).
    - destruct (forallb fits (keys (p_map p))) eqn:E; [|discriminate]. apply all_fit_forallb in E. rewrite (E _ Hm) in Hf. discriminate.
    - cbn [bind]. unfold r_p_set, p_set. rewrite Hp. cbn [orb]. intros [= <-]. cbn [p_dict p_map]. split; [reflexivity|].
      apply mem_get. rewrite get_put. destruct (eqb d' d); [eauto|]. apply mem_get, Hm.
  Qed.
  Lemma put_keeps ow lx ix wid q d f : J ow (mkSys lx ix) -> r_updated fits rnd d f (get (wordinfo ix) wid) = Ok q ->
    J ow (mkSys lx (set_wordinfo (put wid q (wordinfo ix)) ix)).
  Proof.
    intros (Ha & Hb & Hc) E. split; [exact Ha|]. split; [exact Hb|]. destruct ow as [[w k]|]; [|exact Hc]. fields. destruct Hc as [Hc (p & d' & H1 & H2 & H3 & H4)].
    split; [exact Hc|]. unfold poison. fields. rewrite get_put. destruct (eqb k wid) eqn:Ek; [|exists p, d'; auto].
    apply eqb_eq in Ek. subst wid. rewrite H1 in E. exists q, d'. destruct (r_updated_keeps _ _ _ _ _ H2 H3 H4 E). auto.
  Qed.
  Lemma k_add ow wid f d : keeps ow (r_add_wordinfo fits rnd wid f d).
  Proof.
    intros [lx ix] H. unfold r_add_wordinfo, sbind, slift. fields. destruct (r_updated fits rnd d f (get (wordinfo ix) wid)) as [q|e] eqn:E.
    - pose proof (put_keeps ow lx ix wid q d f H E) as H1. destruct (get (wordinfo ix) wid); fields; exact H1.
    - destruct (get (wordinfo ix) wid); fields; exact H.
  Qed.
  Lemma k_loop ow d l n : keeps ow (r_mass_loop fits rnd d l n).
  Proof.
    revert n. induction l as [|[w v] l IH]; intros n; cbn [r_mass_loop]; [apply k_ret|].
    intros [lx ix] H. unfold sbind, slift. fields. destruct (r_updated fits rnd d v (get (wordinfo ix) w)) as [q|e] eqn:E; [|exact H].
    apply IH. exact (put_keeps ow lx ix w q d v H E).
  Qed.
  Lemma k_del ow wid d : fits d = true -> keeps ow (del_wordinfo wid d).
  Proof.
    intros Hd [lx ix] (Ha & Hb & Hc). unfold del_wordinfo, sbind, slift, item. fields.
    destruct (get (wordinfo ix) wid) as [p|] eqn:Ep; [|split; auto]. destruct (get (p_map p) d) as [v|] eqn:Ev; [|split; auto]. cbn [p_map].
    assert (G : forall w k, get (lwids lx) w = Some k /\ poison ix k ->
       get (lwids lx) w = Some k /\ (is_empty (del d (p_map p)) = true -> k <> wid) /\
       (k = wid -> poison (set_wordinfo (put wid (mkPosting (p_dict p) (del d (p_map p))) (wordinfo ix)) ix) k)).
    { intros w k [Hc1 (q & d' & H1 & H2 & H3 & H4)]. split; [exact Hc1|].
      assert (Hm : k = wid -> mem d' (del d (p_map p)) = true /\ p_dict p = true).
      { intros ->. assert (q = p) by congruence. subst q. split; [|exact H2]. apply mem_get. rewrite get_del.
        assert (Hn : eqb d' d = false) by (apply eqb_neq; congruence). rewrite Hn. apply mem_get, H3. }
      split.
      - intros He ->. apply is_empty_spec in He. destruct (Hm eq_refl) as [Hm' _]. rewrite He in Hm'. apply mem_get in Hm' as [x Hx]. rewrite get_empty in Hx. discriminate.
      - intros Hk. destruct (Hm Hk) as [Hm1 Hm2]. subst k. eexists _, d'. fields. rewrite get_put, eqb_refl. split; [reflexivity|]. cbn [p_dict p_map]. auto. }
    destruct (is_empty (del d (p_map p))); unfold on_ix, smod; cbn [fst]; fields; (split; [exact Ha|]); (split; [exact Hb|]); destruct ow as [[w k]|]; try exact Hc; fields;
      destruct (G w k Hc) as (G1 & G2 & G3); (split; [exact G1|]); unfold poison; fields.
    - specialize (G2 eq_refl). apply eqb_neq in G2. rewrite get_del, G2. apply Hc.
    - destruct (eqb k wid) eqn:Ek; [apply eqb_eq in Ek; exact (G3 Ek)|]. rewrite get_put, Ek. apply Hc.
  Qed.
  Lemma k_docweight ow d v : keeps ow (r_put_docweight fits rnd d v).
  Proof. unfold r_put_docweight. destruct (fits d) eqn:E; [|apply k_lift]. apply k_on; [reflexivity|]. intros ix H. apply all_fit_put; assumption. Qed.
  Lemma k_docwords ow d v : keeps ow (r_put_docwords (V := V) fits d v).
  Proof. unfold r_put_docwords. destruct (fits d) eqn:E; [|apply k_lift]. apply k_on; [reflexivity|auto]. Qed.
  Lemma k_count ow n : keeps ow (on_ix (change_documentCount n)).
  Proof. apply k_on; [reflexivity|auto]. Qed.
  Lemma k_total ow n : keeps ow (on_ix (change_totaldoclen n)).
  Proof. apply k_on; [reflexivity|auto]. Qed.
  Lemma k_reindex ow d t : fits d = true -> keeps ow (r_reindex fits rnd veqb freqs d (source pipeline t)).
  Proof.
    intros Hd. unfold r_reindex. apply k_bind; [apply k_lift|]. intros ow'. apply k_bind; [apply k_lift|]. intros [? ?].
    apply k_bind; [apply k_source|]. intros nw. apply k_bind; [apply k_lift|]. intros [? ?]. cbv zeta.
    apply k_bind; [apply k_iter; intros x; apply k_del, Hd|]. intros _.
    apply k_bind; [apply k_iter; intros x; apply k_bind; [apply k_lift|]; intros y; apply k_add|]. intros _.
    apply k_bind; [apply k_iter; intros x; apply k_bind; [apply k_lift|]; intros y; apply k_bind; [apply k_lift|]; intros z; destruct (negb _); [apply k_add|apply k_ret]|]. intros _.
    apply k_bind; [apply k_docweight|]. intros _. apply k_bind; [apply k_lift|]. intros code. apply k_bind; [apply k_docwords|]. intros _. apply k_ret.
  Qed.
  Lemma k_index ow re d t : (fits d = true -> keeps ow (re d (source pipeline t))) -> keeps ow (r_base_index_doc fits rnd freqs re d (source pipeline t)).
  Proof.
    intros Hre s H. unfold r_base_index_doc. destruct (r_has_doc fits (six s) d) eqn:E.
    - apply andb_true_iff in E as [E _]. exact (Hre E s H).
    - revert s H E. assert (G : keeps ow (sdo wids <- source pipeline t;
         sdo (wid2weight, docw) <- slift (fun _ => freqs wids);
         sdo _ <- r_mass_add_wordinfo fits rnd (dict_items wids wid2weight) d;
         sdo _ <- r_put_docweight fits rnd d docw;
         sdo code <- slift (fun _ => encode wids);
         sdo _ <- r_put_docwords fits d code;
         sdo _ <- on_ix (change_documentCount 1);
         sret (Zlen wids))); [|intros s H _; apply G, H].
      apply k_bind; [apply k_source|]. intros wids. apply k_bind; [apply k_lift|]. intros [? ?].
      apply k_bind; [unfold r_mass_add_wordinfo; apply k_bind; [apply k_loop|]; intros n; apply k_on; [reflexivity|auto]|]. intros _.
      apply k_bind; [apply k_docweight|]. intros _. apply k_bind; [apply k_lift|]. intros code. apply k_bind; [apply k_docwords|]. intros _.
      apply k_bind; [apply k_count|]. intros _. apply k_ret.
  Qed.
  Lemma k_unindex ow d : keeps ow (r_base_unindex_doc (V := V) fits d).
  Proof.
    intros s H. unfold r_base_unindex_doc. destruct (r_has_doc fits (six s) d) eqn:E; [|exact H]. cbn [negb]. apply andb_true_iff in E as [Hd Eh].
    unfold base_unindex_doc. rewrite Eh. cbn [negb]. clear Eh. revert s H.
    change (keeps ow (sdo wids <- slift (fun s => get_words (six s) d);
       sdo _ <- siter (fun wid => del_wordinfo wid d) (selems (set_of_list wids));
       sdo _ <- delitem docwords set_docwords d;
       sdo _ <- delitem docweight set_docweight d;
       on_ix (change_documentCount (-1)))).
    apply k_bind; [apply k_lift|]. intros wids. apply k_bind; [apply k_iter; intros x; apply k_del, Hd|]. intros _.
    apply k_bind; [unfold delitem; apply k_bind; [apply k_lift|]; intros _; apply k_on; [reflexivity|auto]|]. intros _.
    apply k_bind; [unfold delitem; apply k_bind; [apply k_lift|]; intros _; apply k_on; [reflexivity|intros ix; apply all_fit_del]|]. intros _. apply k_count.
  Qed.

  (** The words at the start of the text are poisoned if they are not in the index. *)
  Lemma dict_keys_app {K} {OK : Ord K} (a b : list K) : exists r, dict_keys (a ++ b) = dict_keys a ++ r.
  Proof.
    unfold dict_keys. rewrite fold_left_app. set (x := fold_left _ a []). clearbody x. revert x. induction b as [|y b IH]; intros x; cbn [fold_left].
    - exists []. rewrite app_nil_r. reflexivity.
    - destruct (existsb (eqb y) x); [apply IH|]. destruct (IH (x ++ [y])) as [r ->]. exists (y :: r). rewrite <- app_assoc. reflexivity.
  Qed.
  Lemma loop_poison d w k : fits d = false -> forall (a b : list Z) (l : list (Z * V)) n lx ix, map fst l = a ++ b -> NoDup (map fst l) -> In k a ->
    J None (mkSys lx ix) -> get (lwids lx) w = Some k ->
    (forall x, In x a -> get (wordinfo ix) x = None) -> J (Some (w, k)) (fst (r_mass_loop fits rnd d l n (mkSys lx ix))).
  Proof.
    intros Hd. induction a as [|x a IH]; intros b l n lx ix El Hn Hk HJ Hw Hnone; [destruct Hk|].
    destruct l as [|[x' v] l]; [discriminate|]. cbn [map fst app] in El. injection El as -> El. cbn [r_mass_loop]. unfold sbind, slift. fields.
    rewrite (Hnone x (or_introl eq_refl)). unfold r_updated. cbn [bind]. unfold r_p_set. cbn [p_dict orb]. fields.
    cbn [map fst] in Hn. inversion Hn as [|? ? Hni Hn']; subst.
    set (q := p_set rnd d v (mkPosting true empty)).
    assert (Hx : J (Some (w, k)) (mkSys lx (set_wordinfo (put x q (wordinfo ix)) ix)) \/ k <> x).
    { destruct (Z.eq_dec k x) as [->|]; [left|right; assumption]. destruct HJ as (H1 & H2 & _). split; [exact H1|]. split; [exact H2|]. split; [exact Hw|].
      exists q, d. fields. rewrite get_put, eqb_refl. split; [reflexivity|]. split; [reflexivity|]. split; [|exact Hd].
      apply mem_get. unfold q, p_set. cbn [p_map]. rewrite get_put, eqb_refl. eauto. }
    destruct Hx as [Hx|Hne]; [apply k_loop, Hx|]. apply (IH b); auto.
    - destruct Hk as [->|Hk]; [contradiction|exact Hk].
    - intros y Hy. fields. rewrite get_put. destruct (eqb y x) eqn:E; [|apply Hnone; right; exact Hy]. apply eqb_eq in E. subst. exfalso. apply Hni. rewrite El. apply in_or_app. left. exact Hy.
  Qed.
  Hypothesis freqs_keys : forall wids m w, freqs wids = Ok (m, w) -> forall k, mem k m = true <-> In k wids.
  Hypothesis freqs_ok : forall wids, exists mw, freqs wids = Ok mw.
  Lemma index_poison re d t s ws1 w ws2 : fits d = false -> J None s -> text_words pipeline t = ws1 ++ w :: ws2 ->
    (forall x i, In x (ws1 ++ [w]) -> get (lwids (slx s)) x = Some i -> get (wordinfo (six s)) i = None) ->
    (forall i, get (wordinfo (six s)) i <> None -> exists x, get (lwids (slx s)) x = Some i) ->
    exists k, J (Some (w, k)) (fst (r_base_index_doc fits rnd freqs re d (source pipeline t) s)).
  Proof.
    intros Hd HJ Et Hno Hknown. destruct s as [lx ix]. pose proof HJ as (Hb & Hf & _). fields. unfold r_base_index_doc, r_has_doc. rewrite Hd. cbn [andb].
    unfold sbind at 1. unfold source. cbn [slx]. destruct (source_spec pipeline t lx Hb) as (E & Hb' & Hg & Hk). rewrite E. clear E.
    set (lx' := lex_step pipeline lx (LText t)) in *. set (wids := ids lx' (text_words pipeline t)) in *. destruct (freqs_ok wids) as [[m x] Ef].
    unfold sbind at 1. unfold slift at 1. rewrite Ef. destruct (Hk w) as [k Ek]; [rewrite Et; apply in_or_app; right; left; reflexivity|]. exists k.
    destruct (dict_items_ok wids m (freqs_keys _ _ _ Ef)) as (Hn & _ & _).
    assert (Hfst : map fst (dict_items wids m) = dict_keys wids).
    { unfold dict_items. change (fold_left _ wids []) with (dict_keys wids).
      assert (G : forall ks, (forall k, In k ks -> mem k m = true) -> map fst (flat_map (fun wid => match get m wid with Some w => [(wid, w)] | None => [] end) ks) = ks).
      { induction ks as [|y ks IH]; intros H; [reflexivity|]. cbn [flat_map]. destruct (proj1 (mem_get _ _) (H y (or_introl eq_refl))) as [v ->].
        cbn [app map fst]. f_equal. apply IH. intros z Hz. apply H. right. exact Hz. }
      apply G. intros y Hy. apply (freqs_keys _ _ _ Ef), (proj2 (dict_keys_spec wids)), Hy. }
    assert (Hsplit : wids = ids lx' (ws1 ++ [w]) ++ ids lx' ws2).
    { unfold wids. rewrite Et. unfold ids. rewrite <- map_app, <- app_assoc. reflexivity. }
    destruct (dict_keys_app (ids lx' (ws1 ++ [w])) (ids lx' ws2)) as [r Er]. rewrite <- Hsplit in Er.
    assert (G : J (Some (w, k)) (fst (r_mass_loop fits rnd d (dict_items wids m) 0 (mkSys lx' ix)))).
    { apply (loop_poison d w k Hd (dict_keys (ids lx' (ws1 ++ [w]))) r); auto.
      - rewrite Hfst. exact Er.
      - apply dict_keys_spec. unfold ids. apply in_map_iff. exists w. split; [unfold get_wid; rewrite Ek; reflexivity|]. apply in_or_app. right. left. reflexivity.
      - split; [exact Hb'|]. split; [exact Hf|exact Logic.I].
      - intros y Hy. apply (proj1 (proj2 (dict_keys_spec _) _)) in Hy. unfold ids in Hy. apply in_map_iff in Hy as (z & <- & Hz). cbn [six].
        destruct (get (wordinfo ix) (get_wid lx' z)) eqn:Eg; [|reflexivity]. exfalso.
        destruct (Hknown (get_wid lx' z)) as [z' Hz']; [congruence|].
        destruct (Hk z) as [i Hi]; [rewrite Et; apply in_app_or in Hz as [Hz|[<-|[]]]; apply in_or_app; [left; exact Hz|right; left; reflexivity]|].
        assert (z' = z). { pose proof (proj1 Hg _ _ Hz') as Hz2. unfold get_wid in Hz2. rewrite Hi in Hz2. destruct Hb' as (B1 & _ & _). apply B1 in Hz2, Hi. congruence. }
        subst z'. rewrite (Hno z _ Hz Hz') in Eg. discriminate. }
    unfold r_mass_add_wordinfo, sbind at 1 2. cbn [six]. destruct (r_mass_loop fits rnd d (dict_items wids m) 0 (mkSys lx' ix)) as [s' [n|e]]; [|exact G].
    cbn [fst] in G. assert (G' : J (Some (w, k)) (fst (on_ix (change_wordCount n) s'))) by (apply (k_on (Some (w, k)) (change_wordCount n)); [reflexivity|auto|exact G]). destruct s' as [lx2 ix2]. fields.
    unfold r_put_docweight. rewrite Hd. unfold sbind, slift. cbn [fst]. exact G'.
  Qed.

  (** Searches for a poisoned word. *)
  Context {F : Type} {AF : Arith F}.
  Variable sw : bindex V -> list Z -> res (list (smap Z F * F)).
  Hypothesis sw_raises : forall ix wids wid, all_fit fits (docweight ix) -> poison ix wid -> In wid wids -> exists e, sw ix wids = Raise e.
  Lemma poison_oov ix wid wids : poison ix wid -> In wid wids -> In wid (remove_oov ix wids).
  Proof. intros (p & d & H & _) Hin. apply filter_In. split; [exact Hin|]. apply mem_get. eauto. Qed.
  Lemma search_poison s w k t : J (Some (w, k)) s -> In w (text_words pipeline t) -> exists e, search pipeline sw s t = Raise e.
  Proof.
    intros (_ & Hf & Hw & Hp) Hin. unfold search.
    assert (Hk : In k (termToWordIds pipeline t (slx s))) by (apply in_map_iff; exists w; split; [unfold get_wid; rewrite Hw; reflexivity|exact Hin]).
    destruct (termToWordIds pipeline t (slx s)) as [|x l]; [destruct Hk|].
    destruct (sw_raises _ _ _ Hf Hp (poison_oov _ _ _ Hp Hk)) as [e ->]. exists e. reflexivity.
  Qed.
  Lemma glob_poison s w k p wids : J (Some (w, k)) s -> globToWordIds p (slx s) = Ok wids -> In (get_wid (slx s) w) wids -> exists e, search_glob sw s p = Raise e.
  Proof.
    intros (_ & Hf & Hw & Hp) E Hin. unfold search_glob. rewrite E. cbn [bind]. unfold get_wid in Hin. rewrite Hw in Hin.
    destruct (sw_raises _ _ _ Hf Hp (poison_oov _ _ _ Hp Hin)) as [e ->]. exists e. reflexivity.
  Qed.
End Poison.

Lemma mapM_raise {A B} (f : A -> res B) l x e : In x l -> f x = Raise e -> exists e', mapM f l = Raise e'.
Proof.
  induction l as [|y l IH]; intros Hin Hx; [destruct Hin|]. cbn [mapM]. destruct Hin as [->|Hin].
  - rewrite Hx. cbn [bind]. eauto.
  - destruct (f y) as [b|e1]; cbn [bind]; [|eauto]. destruct (IH Hin Hx) as [e' ->]. cbn [bind]. eauto.
Qed.
Lemma py_score_raise {F} {AF : Arith F} (K1 B : F) items d2l idf mean : (exists d f, In (d, f) items /\ get d2l d = None) ->
  forall r, exists e, py_score K1 B r items d2l idf mean = Raise e.
Proof.
  induction items as [|[d f] l IH]; intros (d' & f' & Hin & Hg) r; [destruct Hin|]. cbn [py_score]. destruct Hin as [[= -> ->]|Hin].
  - unfold item. rewrite Hg. cbn [bind]. eauto.
  - destruct (item d2l d) as [len|e]; cbn [bind]; [|eauto]. destruct (okapi_tf K1 B mean len f) as [tf|e]; cbn [bind]; [|eauto]. apply IH. eauto.
Qed.
Lemma c_score_raise {F} {AF : Arith F} (K1 B : F) items d2l idf mean : (exists d f, In (d, f) items /\ get d2l d = None) ->
  forall r, exists e, c_score K1 B r items d2l idf mean = Raise e.
Proof.
  induction items as [|[d f] l IH]; intros (d' & f' & Hin & Hg) r; [destruct Hin|]. cbn [c_score]. destruct Hin as [[= -> ->]|Hin].
  - unfold item. rewrite Hg. cbn [bind]. eauto.
  - destruct (item d2l d) as [len|e]; cbn [bind]; [|eauto]. apply IH. eauto.
Qed.
Lemma poison_item fits (ix : bindex Z) wid p : all_fit fits (docweight ix) -> poison fits ix wid -> get (wordinfo ix) wid = Some p ->
  exists d f, In (d, f) (elts (p_map p)) /\ get (docweight ix) d = None.
Proof.
  intros Hf (p' & d & H1 & _ & H2 & H3) E. assert (p' = p) by congruence. subst p'. apply mem_get in H2 as [f H2]. exists d, f. split; [apply get_In; exact H2|].
  destruct (get (docweight ix) d) eqn:Eg; [|reflexivity]. assert (fits d = true) by (apply Hf, mem_get; eauto). congruence.
Qed.
Lemma python_raises fits {F} {AF : Arith F} (K1 B : F) ix wids wid : all_fit fits (docweight ix) -> poison fits ix wid -> In wid wids ->
  exists e, python_search_wids K1 B ix wids = Raise e.
Proof.
  intros Hf Hp Hin. unfold python_search_wids. destruct wids as [|x l]; [destruct Hin|]. destruct (mean_doc_len ix) as [m|e]; cbn [bind]; [|eauto].
  assert (G : exists e, py_search_wid K1 B ix m wid = Raise e).
  { unfold py_search_wid. pose proof Hp as (p & d & H1 & _). unfold item at 1. rewrite H1. cbn [bind]. destruct (inverse_doc_frequency _ _); cbn [bind]; [|eauto].
    destruct (py_score_raise K1 B (elts (p_map p)) (docweight ix) a m (poison_item fits ix wid p Hf Hp H1) empty) as [e ->]. cbn [bind]. eauto. }
  destruct G as [e G]. exact (mapM_raise _ _ _ _ Hin G).
Qed.
Lemma c_raises fits {F} {AF : Arith F} (K1 B : F) ix wids wid : all_fit fits (docweight ix) -> poison fits ix wid -> In wid wids ->
  exists e, c_search_wids K1 B ix wids = Raise e.
Proof.
  intros Hf Hp Hin. unfold c_search_wids. destruct wids as [|x l]; [destruct Hin|]. destruct (mean_doc_len ix) as [m|e]; cbn [bind]; [|eauto].
  assert (G : exists e, c_search_wid K1 B ix m wid = Raise e).
  { unfold c_search_wid. pose proof Hp as (p & d & H1 & _). unfold item at 1. rewrite H1. cbn [bind]. destruct (inverse_doc_frequency _ _); cbn [bind]; [|eauto].
    destruct (c_score_raise K1 B (elts (p_map p)) (docweight ix) a m (poison_item fits ix wid p Hf Hp H1) empty) as [e ->]. cbn [bind]. eauto. }
  destruct G as [e G]. exact (mapM_raise _ _ _ _ Hin G).
Qed.
Lemma cos_raises fits {F} {AF : Arith F} (ix : bindex F) wids wid : all_fit fits (docweight ix) -> poison fits ix wid -> In wid wids ->
  exists e, r_cos_search_wids fits ix wids = Raise e.
Proof.
  intros _ (p & d & H1 & H2 & H3 & H4) Hin. unfold r_cos_search_wids.
  assert (G : exists e, r_cos_search_wid fits ix wid = Raise e).
  { unfold r_cos_search_wid. destruct (cos_search_wid ix wid); cbn [bind]; [|eauto]. unfold item. rewrite H1. cbn [bind]. rewrite H2. cbn [andb].
    destruct (forallb fits (keys (p_map p))) eqn:E; [|cbn [negb]; eauto]. apply all_fit_forallb in E. rewrite (E _ H3) in H4. discriminate. }
  destruct G as [e G]. exact (mapM_raise _ _ _ _ Hin G).
Qed.

(** ** A word of a refused text stays poisoned until the index is cleared *)
Section Later.
  Variable fits : Z -> bool.
  Context {V : Type}.
  Variable rnd : V -> V.
  Variable fr : list Z -> smap Z V * V.
  Variable pipeline : list elem.
  Variables ri ci : Z -> ltext -> sx (sys V) Z.
  Variables ru cu : Z -> sx (sys V) unit.
  Local Notation rstep := (op_step pipeline ri ru).
  Local Notation rstate h := (r_fold rstep h).
  Local Notation cstate h := (fst (run_ops pipeline ci cu h)).
  Hypothesis ri_keeps : forall ow d t, keeps fits ow (ri d t).
  Hypothesis ru_keeps : forall ow d, keeps fits ow (ru d).
  Lemma keeps_step ow o s : o <> TClear \/ ow = None -> (forall n, o = TOther (LCounter n) -> 0 <= n) -> J fits ow s -> J fits ow (fst (rstep o s)).
  Proof.
    intros Ho Hn H. destruct o as [d t|d| |lo]; cbn [op_step].
    - revert s H. apply k_bind; [apply ri_keeps|]. intros _. apply k_ret.
    - apply ru_keeps, H.
    - destruct Ho as [Ho| ->]; [contradiction|]. destruct s as [lx ix]. destruct H as (H1 & _ & _). split; [exact H1|]. split; [|exact Logic.I]. apply all_fit_empty.
    - destruct s as [lx ix]. destruct H as (H1 & H2 & H3). cbn [smod fst slx six] in *. unfold smod. cbn [fst slx six].
      destruct (lex_step_ok pipeline lx lo H1) as [Hb Hg]; [intros n ->; exact (Hn n eq_refl)|].
      split; [exact Hb|]. split; [exact H2|]. destruct ow as [[w k]|]; [|exact H3]. cbn [slx six] in *. split; [apply Hg|]; apply H3.
  Qed.
  Lemma keeps_fold ow h s : ~ In TClear h \/ ow = None -> counter_ok (lex_hist h) -> J fits ow s -> J fits ow (fold_left (fun s o => fst (rstep o s)) h s).
  Proof.
    revert s. induction h as [|o h IH]; intros s Hc Hn H; [exact H|]. cbn [fold_left]. apply IH.
    - destruct Hc as [Hc|Hc]; [left|right; exact Hc]. intros Hin. apply Hc. right. exact Hin.
    - intros n Hi. apply Hn. unfold lex_hist. cbn [flat_map]. apply in_or_app. right. exact Hi.
    - apply keeps_step; [|intros n ->; apply Hn; left; reflexivity|exact H]. destruct Hc as [Hc|Hc]; [left|right; exact Hc]. intros ->. apply Hc. left. reflexivity.
  Qed.
  Lemma J_start : J (V := V) fits None (mkSys lex_new ix_new).
  Proof. split; [apply bij_new|]. split; [apply all_fit_empty|exact Logic.I]. Qed.

  Hypothesis fr_keys : forall wids w, mem w (fst (fr wids)) = true <-> In w wids.
  Hypothesis c_inv : forall h, history_ok pipeline h -> sysinv rnd fr (cstate h) (docs_of pipeline h).
  Hypothesis run_R : forall h, history_ok pipeline h -> others_fine fits rstep h -> R fits pipeline h (rstate h) (cstate (without_refused fits h)).
  Hypothesis ri_poison : forall d t s ws1 w ws2, fits d = false -> J fits None s -> text_words pipeline t = ws1 ++ w :: ws2 ->
    (forall x i, In x (ws1 ++ [w]) -> get (lwids (slx s)) x = Some i -> get (wordinfo (six s)) i = None) ->
    (forall i, get (wordinfo (six s)) i <> None -> exists x, get (lwids (slx s)) x = Some i) ->
    exists k, J fits (Some (w, k)) (fst (ri d t s)).

  Lemma clean_known h i : history_ok pipeline h -> get (wordinfo (six (cstate h))) i <> None ->
    exists x, get (lwids (slx (cstate h))) x = Some i /\ In x (vocabulary (docs_of pipeline h)).
  Proof.
    intros Hh Hi. pose proof (c_inv h Hh) as Hv. pose proof (wordinfo_keys rnd fr fr_keys _ _ Hv) as Hp. destruct Hv as (_ & Hk & _).
    destruct (get (wordinfo (six (cstate h))) i) as [p|] eqn:E; [|contradiction].
    assert (Hin : In i (ids (slx (cstate h)) (vocabulary (docs_of pipeline h)))) by (eapply Permutation_in; [exact Hp|]; apply keys_In; eauto).
    apply in_map_iff in Hin as (x & Ex & Hx). exists x. split; [|exact Hx]. pose proof Hx as Hx'. apply vocabulary_In in Hx' as (d & ws & Hd & Hw).
    destruct (Hk d ws Hd x Hw) as [j Hj]. unfold get_wid in Ex. rewrite Hj in Ex. congruence.
  Qed.
  Lemma poisoned h1 d t ws1 w ws2 h2 : history_ok pipeline h1 -> others_fine fits rstep h1 -> fits d = false -> text_words pipeline t = ws1 ++ w :: ws2 ->
    (forall x, In x (ws1 ++ [w]) -> ~ In x (vocabulary (docs_of pipeline (without_refused fits h1))) /\ ~ In x (refused_words fits pipeline h1)) ->
    ~ In TClear h2 -> counter_ok (lex_hist h2) ->
    exists k, J fits (Some (w, k)) (rstate (h1 ++ TIndex d t :: h2)).
  Proof.
    intros Hh Ho Hd Et Hno Hcl Hct. unfold r_fold. rewrite fold_left_app. cbn [fold_left]. change (fold_left _ h1 _) with (rstate h1).
    pose proof (run_R h1 Hh Ho) as HR. pose proof (history_without fits _ _ Hh) as Hw. set (c := cstate (without_refused fits h1)) in *.
    assert (HJ : J fits None (rstate h1)) by (apply keeps_fold; [right; reflexivity|apply Hh|apply J_start]).
    pose proof (rr_lx _ _ _ _ HR) as El. destruct (c_inv _ Hw) as ((B1 & _) & _). fold c in B1.
    destruct (ri_poison d t (rstate h1) ws1 w ws2 Hd HJ Et) as [k Hk].
    - intros x i Hx Hi. rewrite El in Hi. destruct (rr_word _ _ _ _ HR i) as [E|[(w' & Hw' & Ew') _]].
      + rewrite E. destruct (get (wordinfo (six c)) i) eqn:Eg; [|reflexivity]. exfalso.
        destruct (clean_known _ i Hw) as (y & Hy1 & Hy2); [fold c; congruence|]. fold c in Hy1. apply B1 in Hi, Hy1. assert (x = y) by congruence. subst. exact (proj1 (Hno y Hx) Hy2).
      + exfalso. apply B1 in Hi, Ew'. assert (x = w') by congruence. subst. exact (proj2 (Hno w' Hx) Hw').
    - intros i Hi. rewrite El. destruct (rr_word _ _ _ _ HR i) as [E|[(w' & _ & Ew') _]]; [|eauto]. rewrite E in Hi. destruct (clean_known _ i Hw Hi) as (y & Hy & _). eauto.
    - exists k. apply keeps_fold; [left; exact Hcl|exact Hct|]. cbn [op_step]. unfold sbind. destruct (ri d t (rstate h1)) as [s1 [a|e]]; exact Hk.
  Qed.
End Later.

(** ** The word counter *)
Section Counter.
  Variable fits : Z -> bool.
  Context {V : Type}.
  Variable rnd : V -> V.
  Variable veqb : V -> V -> bool.
  Variable freqs : list Z -> res (smap Z V * V).
  Variable pipeline : list elem.
  Definition uncounted (s : sys V) : Z := Zsize (wordinfo (six s)) - wordCount (six s).
  Definition counts {A} (m : sx (sys V) A) : Prop := forall s s' a, m s = (s', Ok a) -> uncounted s' = uncounted s.
  Lemma c_ret {A} (a : A) : counts (sret a).
  Proof. intros s s' b [= <- _]. reflexivity. Qed.
  Lemma c_lift {A} (f : sys V -> res A) : counts (slift f).
  Proof. intros s s' b E. unfold slift in E. inversion E. reflexivity. Qed.
  Lemma c_bind {A B} (m : sx (sys V) A) (f : A -> sx (sys V) B) : counts m -> (forall a, counts (f a)) -> counts (sbind m f).
  Proof.
    intros H1 H2 s s' b E. unfold sbind in E. destruct (m s) as [s1 [a|e]] eqn:E1; [|discriminate].
    rewrite (H2 a _ _ _ E). exact (H1 _ _ _ E1).
  Qed.
  Lemma c_iter {A} (f : A -> sx (sys V) unit) l : (forall x, counts (f x)) -> counts (siter f l).
  Proof. intros H. induction l as [|x l IH]; cbn [siter]; [apply c_ret|]. apply c_bind; [apply H|intros _; exact IH]. Qed.
  Lemma c_on (f : bindex V -> bindex V) : (forall ix, wordinfo (f ix) = wordinfo ix /\ wordCount (f ix) = wordCount ix) -> counts (on_ix f).
  Proof. intros H s s' a E. unfold on_ix, smod in E. inversion E. unfold uncounted. cbn [six]. destruct (H (six s)) as [-> ->]. reflexivity. Qed.
  Lemma c_source t : counts (source pipeline t).
  Proof. intros s s' a E. unfold source in E. destruct (sourceToWordIds pipeline t (slx s)) as [lx r]. inversion E. reflexivity. Qed.
  Lemma c_add wid f d : counts (r_add_wordinfo fits rnd wid f d).
  Proof.
    intros s s' a E. unfold r_add_wordinfo, sbind, slift, on_ix, smod, sret in E. destruct (get (wordinfo (six s)) wid) as [p|] eqn:Eg; fields.
    - destruct (r_updated fits rnd d f (Some p)) as [q|]; [|discriminate]. inversion E. unfold uncounted. fields. rewrite (Zsize_put_old _ _ _ _ Eg). reflexivity.
    - destruct (r_updated fits rnd d f None) as [q|]; [|discriminate]. inversion E. unfold uncounted. fields. rewrite (Zsize_put_new _ _ _ Eg). lia.
  Qed.
  Lemma c_del wid d : counts (del_wordinfo (V := V) wid d).
  Proof.
    intros s s' a E. unfold del_wordinfo, sbind, slift, item, on_ix, smod in E. destruct (get (wordinfo (six s)) wid) as [p|] eqn:Eg; [|discriminate].
    destruct (get (p_map p) d) as [x|]; [|discriminate]. cbv zeta in E. destruct (is_empty _); inversion E; unfold uncounted; fields.
    - rewrite (Zsize_del _ _ _ Eg). lia.
    - rewrite (Zsize_put_old _ _ _ _ Eg). reflexivity.
  Qed.
  Lemma c_loop d (l : list (Z * V)) n s s' n' : r_mass_loop fits rnd d l n s = (s', Ok n') -> uncounted s' = uncounted s + (n' - n).
  Proof.
    revert n s. induction l as [|[w v] l IH]; intros n s E; cbn [r_mass_loop] in E.
    - inversion E. lia.
    - unfold sbind, slift, on_ix, smod in E. destruct (r_updated fits rnd d v (get (wordinfo (six s)) w)) as [p|]; [|discriminate].
      specialize (IH _ _ E). rewrite IH. unfold uncounted. fields. destruct (get (wordinfo (six s)) w) as [q|] eqn:Eg; [rewrite (Zsize_put_old _ _ _ _ Eg)|rewrite (Zsize_put_new _ _ _ Eg)]; lia.
  Qed.
  Lemma c_mass l d : counts (r_mass_add_wordinfo fits rnd l d).
  Proof.
    intros s s' a E. unfold r_mass_add_wordinfo, sbind, on_ix, smod in E. destruct (r_mass_loop fits rnd d l 0 s) as [s1 [n|e]] eqn:E1; [|discriminate].
    pose proof (c_loop _ _ _ _ _ _ E1) as H. inversion E. unfold uncounted in *. fields. lia.
  Qed.
  Lemma c_docweight d v : counts (r_put_docweight fits rnd d v).
  Proof. unfold r_put_docweight. destruct (fits d); [apply c_on; auto|apply c_lift]. Qed.
  Lemma c_docwords d v : counts (r_put_docwords (V := V) fits d v).
  Proof. unfold r_put_docwords. destruct (fits d); [apply c_on; auto|apply c_lift]. Qed.
  Lemma c_total n : counts (on_ix (change_totaldoclen (V := V) n)).
  Proof. apply c_on. auto. Qed.
  Lemma c_reindex d t : counts (r_reindex fits rnd veqb freqs d (source pipeline t)).
  Proof.
    unfold r_reindex. apply c_bind; [apply c_lift|]. intros ow'. apply c_bind; [apply c_lift|]. intros [? ?].
    apply c_bind; [apply c_source|]. intros nw. apply c_bind; [apply c_lift|]. intros [? ?]. cbv zeta.
    apply c_bind; [apply c_iter; intros x; apply c_del|]. intros _.
    apply c_bind; [apply c_iter; intros x; apply c_bind; [apply c_lift|]; intros y; apply c_add|]. intros _.
    apply c_bind; [apply c_iter; intros x; apply c_bind; [apply c_lift|]; intros y; apply c_bind; [apply c_lift|]; intros z; destruct (negb _); [apply c_add|apply c_ret]|]. intros _.
    apply c_bind; [apply c_docweight|]. intros _. apply c_bind; [apply c_lift|]. intros code. apply c_bind; [apply c_docwords|]. intros _. apply c_ret.
  Qed.
  Lemma c_index re d t : counts (re d (source pipeline t)) -> counts (r_base_index_doc fits rnd freqs re d (source pipeline t)).
  Proof.
    intros Hre s s' a. unfold r_base_index_doc. destruct (r_has_doc fits (six s) d); [apply Hre|]. revert s s' a.
    change (counts (sdo wids <- source pipeline t;
         sdo (wid2weight, docw) <- slift (fun _ => freqs wids);
         sdo _ <- r_mass_add_wordinfo fits rnd (dict_items wids wid2weight) d;
         sdo _ <- r_put_docweight fits rnd d docw;
         sdo code <- slift (fun _ => encode wids);
         sdo _ <- r_put_docwords fits d code;
         sdo _ <- on_ix (change_documentCount 1);
         sret (Zlen wids))).
    apply c_bind; [apply c_source|]. intros wids. apply c_bind; [apply c_lift|]. intros [? ?].
    apply c_bind; [apply c_mass|]. intros _.
    apply c_bind; [apply c_docweight|]. intros _. apply c_bind; [apply c_lift|]. intros code. apply c_bind; [apply c_docwords|]. intros _.
    apply c_bind; [apply c_on; auto|]. intros _. apply c_ret.
  Qed.
  Lemma c_unindex d : counts (r_base_unindex_doc (V := V) fits d).
  Proof.
    intros s s' a. unfold r_base_unindex_doc. destruct (negb _); [intros [= <- _]; reflexivity|]. unfold base_unindex_doc.
    destruct (negb _); [intros [= <- _]; reflexivity|]. revert s s' a.
    change (counts (sdo wids <- slift (fun s => get_words (six s) d);
       sdo _ <- siter (fun wid => del_wordinfo wid d) (selems (set_of_list wids));
       sdo _ <- delitem docwords set_docwords d;
       sdo _ <- delitem docweight set_docweight d;
       on_ix (change_documentCount (-1)))).
    apply c_bind; [apply c_lift|]. intros wids. apply c_bind; [apply c_iter; intros x; apply c_del|]. intros _.
    apply c_bind; [unfold delitem; apply c_bind; [apply c_lift|]; intros _; apply c_on; auto|]. intros _.
    apply c_bind; [unfold delitem; apply c_bind; [apply c_lift|]; intros _; apply c_on; auto|]. intros _. apply c_on; auto.
  Qed.

  Variable fr : list Z -> smap Z V * V.
  Hypothesis fr_keys : forall wids w, mem w (fst (fr wids)) = true <-> In w wids.
  Variables ri ci : Z -> ltext -> sx (sys V) Z.
  Variables ru cu : Z -> sx (sys V) unit.
  Local Notation rstep := (op_step pipeline ri ru).
  Local Notation rstate h := (r_fold rstep h).
  Local Notation cstate h := (fst (run_ops pipeline ci cu h)).
  Hypothesis ri_counts : forall d t, counts (ri d t).
  Hypothesis ru_counts : forall d, counts (ru d).
  Hypothesis c_inv : forall h, history_ok pipeline h -> sysinv rnd fr (cstate h) (docs_of pipeline h).
  Hypothesis run_R : forall h, history_ok pipeline h -> others_fine fits rstep h -> R fits pipeline h (rstate h) (cstate (without_refused fits h)).
  Hypothesis fine : forall h, history_ok pipeline h -> apart fits pipeline h -> others_fine fits rstep h.
  Lemma step_counts o s s' : uncounted s = 0 -> rstep o s = (s', Ok tt) -> uncounted s' = 0.
  Proof.
    intros H. destruct o as [d t|d| |lo]; cbn [op_step]; intros E.
    - rewrite <- H. revert E. apply (c_bind (ri d t) (fun _ => sret tt)); [apply ri_counts|intros _; apply c_ret].
    - rewrite <- H. exact (ru_counts _ _ _ _ E).
    - unfold clear, on_ix, smod in E. inversion E. reflexivity.
    - unfold smod in E. inversion E. exact H.
  Qed.
  Lemma all_counted h : (forall o, In o h -> refused fits o = false) -> others_fine fits rstep h -> uncounted (rstate h) = 0.
  Proof.
    induction h as [|o h IH] using rev_ind; intros Hr Ho; [reflexivity|]. unfold r_fold. rewrite fold_left_app. cbn [fold_left]. change (fold_left _ h _) with (rstate h).
    assert (E : snd (rstep o (rstate h)) = Ok tt) by (apply (Ho h o []); [reflexivity|apply Hr, in_or_app; right; left; reflexivity]).
    destruct (rstep o (rstate h)) as [s' r] eqn:Es. cbn [fst snd] in *. subst r. apply (step_counts o (rstate h)); [|exact Es]. apply IH.
    - intros x Hx. apply Hr, in_or_app. left. exact Hx.
    - intros h1 x h2 -> Hx. apply (Ho h1 x (h2 ++ [o])); [rewrite <- app_assoc; reflexivity|exact Hx].
  Qed.
  Lemma no_refused_words h : (forall o, In o h -> refused fits o = false) -> refused_words fits pipeline h = [].
  Proof.
    induction h as [|o h IH] using rev_ind; intros H; [reflexivity|]. unfold refused_words in *. rewrite fold_left_app. cbn [fold_left].
    rewrite IH by (intros x Hx; apply H, in_or_app; left; exact Hx). assert (Hx : refused fits o = false) by (apply H, in_or_app; right; left; reflexivity). clear H. rename Hx into H.
    destruct o; try reflexivity. cbn [refused] in H. destruct (fits docid); [reflexivity|discriminate].
  Qed.
  Lemma no_refused h : (forall o, In o h -> refused fits o = false) -> without_refused fits h = h.
  Proof.
    intros H. unfold without_refused. rewrite <- (map_id h) at 2. apply map_ext_in. intros o Ho. specialize (H o Ho). destruct o; try reflexivity. cbn [refused] in H.
    destruct (fits docid); [reflexivity|discriminate].
  Qed.
  Lemma unaffected h : history_ok pipeline h -> (forall o, In o h -> refused fits o = false) -> rstate h = cstate h /\ others_fine fits rstep h.
  Proof.
    intros Hh Hr. assert (Ho : others_fine fits rstep h).
    { apply fine; [exact Hh|]. intros h1 d t h2 w E _ _. rewrite no_refused_words; [intros []|]. intros o Hin. apply Hr. rewrite E. apply in_or_app. left. exact Hin. }
    split; [|exact Ho]. pose proof (run_R h Hh Ho) as HR. rewrite (no_refused h Hr) in HR.
    pose proof (all_counted h Hr Ho) as Hc. destruct (c_inv h Hh) as (B & K & I0).
    destruct HR as [H1 H2 H3 H4 H5 _ _ H6]. unfold uncounted in Hc.
    assert (Hw : wordinfo (six (rstate h)) = wordinfo (six (cstate h))).
    { apply smap_ext. intros wid. destruct (H6 wid) as [E|[(w & Hin & _) _]]; [exact E|]. rewrite (no_refused_words h Hr) in Hin. destruct Hin. }
    assert (Hwc : wordCount (six (rstate h)) = wordCount (six (cstate h))).
    { rewrite (proj2 (iv_info _ _ _ _ I0)). rewrite <- Hw. lia. }
    destruct (rstate h) as [lx ix], (cstate h) as [lx' ix']. cbn [slx six] in *. destruct ix, ix'. cbn in *. subst. reflexivity.
  Qed.
End Counter.

(** ** Okapi indexes *)
Section OkapiR.
  Variable fits : Z -> bool.
  Variable pipeline : list elem.
  Local Notation ri := (r_okapi_index_doc fits pipeline).
  Local Notation ru := (r_okapi_unindex_doc fits).
  Local Notation ci := (okapi_index_doc pipeline).
  Local Notation cu := okapi_unindex_doc.
  Lemma okapi_fkeys wids m w : okapi_freqs wids = Ok (m, w) -> forall k, mem k m = true <-> In k wids.
  Proof. intros E. pose proof (okapi_keys wids) as H. unfold okapi_freqs in E. injection E as <- <-. intros k. apply (H k). Qed.
  Lemma okapi_c_ok h : history_ok pipeline h -> snd (run_ops pipeline ci cu h) = Ok tt /\ slx (fst (run_ops pipeline ci cu h)) = lex_run pipeline (lex_hist h).
  Proof. intros H. destruct (okapi_run_ok pipeline h H) as (s & E & El & _). unfold okapi_run in E. rewrite E. auto. Qed.
  Lemma okapi_i_sim bad d t : fits d = true -> simT fits pipeline bad t (ri d t) (ci d t).
  Proof.
    intros Hd. unfold r_okapi_index_doc, okapi_index_doc, okapi_index_doc_with. apply st_after.
    - apply (st_index fits f32Z Z.eqb); [exact okapi_fkeys|exact Hd|]. unfold r_okapi_reindex, okapi_reindex, change_doc_len.
      apply st_lift; [intros s c Hr; rewrite (rr_dw _ _ _ _ Hr); reflexivity|]. intros w. apply st_on.
      + intros lx ix ix' [? ? ? ? H5 ? ? ?]. fields. constructor; fields; try assumption. rewrite H5. reflexivity.
      + apply st_reindex; [exact okapi_fkeys|exact Hd].
    - intros n. apply sb_bind; [apply sb_total|]. intros _. apply sb_ret.
  Qed.
  Lemma okapi_i_bad bad d t s c : fits d = false -> bij (slx c) -> rrel fits bad s c ->
    exists s', ri d t s = (s', Raise TypeError) /\
      rrel fits (fun wid => bad wid \/ exists w, In w (text_words pipeline t) /\ get (lwids (lex_step pipeline (slx c) (LText t))) w = Some wid)
        s' (mkSys (lex_step pipeline (slx c) (LText t)) (six c)).
  Proof.
    intros Hd Hb Hr. destruct (index_bad fits f32Z Z.eqb okapi_freqs pipeline okapi_fkeys bad (r_okapi_reindex fits) d t s c Hd Hb) as (s' & E & Hr'); [|exact Hr|].
    - intros wids. eexists. reflexivity.
    - exists s'. split; [|exact Hr']. unfold r_okapi_index_doc, sbind. rewrite E. reflexivity.
  Qed.
  Lemma okapi_u_sim bad d : simb fits bad [] (ru d) (cu d).
  Proof.
    intros s c c' a Hr E. unfold r_okapi_unindex_doc, okapi_unindex_doc in *. rewrite (rr_has _ _ _ _ d Hr). destruct (negb (has_doc (six c) d)).
    - injection E as <- <-. left. exists s. auto.
    - revert s c c' a Hr E. refine (sb_bind _ bad _ _ _ _ _ _ _); [apply sb_lift; intros s c Hr; rewrite (rr_dw _ _ _ _ Hr); reflexivity|]. intros w.
      apply sb_bind; [apply sb_total|]. intros _. apply (sb_unindex fits f32Z Z.eqb okapi_freqs).
  Qed.
  Lemma okapi_rel h : history_ok pipeline h -> others_fine fits (r_okapi_step fits pipeline) h ->
    R fits pipeline h (r_okapi_run fits pipeline h) (okapi_state pipeline (without_refused fits h)).
  Proof. exact (run_rel fits pipeline ri ci ru cu okapi_c_ok okapi_i_sim okapi_i_bad okapi_u_sim h). Qed.
  Lemma okapi_r_results h o : history_ok pipeline (h ++ [o]) -> others_fine fits (r_okapi_step fits pipeline) h ->
    let r := snd (r_okapi_step fits pipeline o (r_okapi_run fits pipeline h)) in
    if refused fits o then r = Raise TypeError
    else r = Ok tt \/ (r = Raise TypeError /\ exists d t w, o = TIndex d t /\ In w (text_words pipeline t) /\ In w (refused_words fits pipeline h)).
  Proof. exact (results fits pipeline ri ci ru cu okapi_c_ok okapi_i_sim okapi_i_bad okapi_u_sim h o). Qed.
  Lemma okapi_r_apart h : history_ok pipeline h -> apart fits pipeline h -> others_fine fits (r_okapi_step fits pipeline) h.
  Proof. exact (apart_fine fits pipeline ri ci ru cu okapi_c_ok okapi_i_sim okapi_i_bad okapi_u_sim h). Qed.
  Lemma okapi_r_contents h : history_ok pipeline h -> others_fine fits (r_okapi_step fits pipeline) h ->
    let s := r_okapi_run fits pipeline h in let c := okapi_state pipeline (without_refused fits h) in
    slx s = slx c /\ documentCount (six s) = documentCount (six c) /\ totaldoclen (six s) = totaldoclen (six c) /\
    docweight (six s) = docweight (six c) /\ docwords (six s) = docwords (six c) /\
    forall d, r_has_doc fits (six s) d = has_doc (six c) d.
  Proof.
    intros Hh Ho s c. pose proof (okapi_rel h Hh Ho) as HR. split; [apply HR|]. split; [apply HR|]. split; [apply HR|]. split; [apply HR|]. split; [apply HR|].
    intros d. exact (rr_has _ _ _ _ d HR).
  Qed.
  Lemma okapi_r_answers F (AF : Arith F) K1 B sw : sw = python_search_wids K1 B \/ sw = c_search_wids K1 B ->
    forall h, history_ok pipeline h -> others_fine fits (r_okapi_step fits pipeline) h ->
    let s := r_okapi_run fits pipeline h in let c := okapi_state pipeline (without_refused fits h) in
    (forall t, (forall w, In w (text_words pipeline t) -> ~ In w (refused_words fits pipeline h)) ->
       search pipeline sw s t = search pipeline sw c t /\ search_phrase pipeline sw s t = search_phrase pipeline sw c t) /\
    (forall p, (forall wids w, globToWordIds p (slx s) = Ok wids -> In w (refused_words fits pipeline h) -> ~ In (get_wid (slx s) w) wids) ->
       search_glob sw s p = search_glob sw c p).
  Proof.
    intros Hsw h Hh Ho s c. pose proof (okapi_rel h Hh Ho) as HR.
    assert (Ha : forall wids ix ix', agree fits wids ix ix' -> sw ix wids = sw ix' wids).
    { intros wids ix ix' H. destruct Hsw as [-> | ->]; [exact (python_agree fits K1 B _ _ _ H)|exact (c_agree fits K1 B _ _ _ H)]. }
    assert (Hb : bij (slx c)). { apply (cstate_bij pipeline ci cu okapi_c_ok), history_without, Hh. }
    split; [intros t Ht; split|intros p Hp].
    - exact (search_agree fits pipeline sw sw Ha h s c Hb HR t Ht).
    - exact (phrase_agree fits pipeline sw sw Ha h s c Hb HR t Ht).
    - exact (glob_agree fits pipeline sw sw Ha h s c HR p Hp).
  Qed.
  Lemma okapi_keeps_i ow d t : keeps fits ow (ri d t).
  Proof.
    unfold r_okapi_index_doc. apply k_bind; [apply k_index; intros Hd; unfold r_okapi_reindex|].
    - apply k_bind; [apply k_lift|]. intros w. apply k_bind; [apply k_total|]. intros _. apply k_reindex, Hd.
    - intros n. apply k_bind; [apply k_total|]. intros _. apply k_ret.
  Qed.
  Lemma okapi_keeps_u ow d : keeps fits ow (ru d).
  Proof.
    intros s H. unfold r_okapi_unindex_doc. destruct (negb _); [exact H|]. revert s H.
    refine (k_bind fits ow _ _ _ _); [apply k_lift|]. intros w. apply k_bind; [apply k_total|]. intros _. apply k_unindex.
  Qed.
  Lemma okapi_c_inv h : history_ok pipeline h -> sysinv f32Z okapi_fr (fst (run_ops pipeline ci cu h)) (docs_of pipeline h).
  Proof. intros H. destruct (okapi_run_ok pipeline h H) as (s & E & _ & Hi & _). unfold okapi_run in E. rewrite E. exact Hi. Qed.
  Lemma okapi_r_poison d t s ws1 w ws2 : fits d = false -> J fits None s -> text_words pipeline t = ws1 ++ w :: ws2 ->
    (forall x i, In x (ws1 ++ [w]) -> get (lwids (slx s)) x = Some i -> get (wordinfo (six s)) i = None) ->
    (forall i, get (wordinfo (six s)) i <> None -> exists x, get (lwids (slx s)) x = Some i) ->
    exists k, J fits (Some (w, k)) (fst (ri d t s)).
  Proof.
    intros Hd HJ Et H1 H2. destruct (index_poison fits f32Z okapi_freqs pipeline okapi_fkeys (fun wids => ex_intro _ _ eq_refl) (r_okapi_reindex fits) d t s ws1 w ws2 Hd HJ Et H1 H2) as [k Hk].
    exists k. unfold r_okapi_index_doc, sbind. destruct (r_base_index_doc _ _ _ _ _ _ _) as [s1 [n|e]]; [|exact Hk].
    refine (k_total fits (Some (w, k)) n s1 Hk).
  Qed.
  Lemma okapi_r_poisoned h1 d t ws1 w ws2 h2 : history_ok pipeline h1 -> others_fine fits (r_okapi_step fits pipeline) h1 -> fits d = false -> text_words pipeline t = ws1 ++ w :: ws2 ->
    (forall x, In x (ws1 ++ [w]) -> ~ In x (vocabulary (docs_of pipeline (without_refused fits h1))) /\ ~ In x (refused_words fits pipeline h1)) ->
    ~ In TClear h2 -> counter_ok (lex_hist h2) ->
    let s := r_okapi_run fits pipeline (h1 ++ TIndex d t :: h2) in
    forall F (AF : Arith F) K1 B sw, sw = python_search_wids K1 B \/ sw = c_search_wids K1 B ->
    (forall q, In w (text_words pipeline q) -> exists e, search pipeline sw s q = Raise e) /\
    (forall p wids, globToWordIds p (slx s) = Ok wids -> In (get_wid (slx s) w) wids -> exists e, search_glob sw s p = Raise e).
  Proof.
    intros H1 H2 H3 H4 H5 H6 H7 s F AF K1 B sw Hsw.
    destruct (poisoned fits f32Z okapi_fr pipeline ri ci ru cu okapi_keeps_i okapi_keeps_u okapi_keys okapi_c_inv okapi_rel okapi_r_poison h1 d t ws1 w ws2 h2 H1 H2 H3 H4 H5 H6 H7) as [k Hk].
    assert (Hr : forall ix wids wid, all_fit fits (docweight ix) -> poison fits ix wid -> In wid wids -> exists e, sw ix wids = Raise e).
    { destruct Hsw as [-> | ->]; [exact (python_raises fits K1 B)|exact (c_raises fits K1 B)]. }
    split; [intros q Hq; exact (search_poison fits pipeline sw Hr s w k q Hk Hq)|intros p wids E Hin; exact (glob_poison fits sw Hr s w k p wids Hk E Hin)].
  Qed.
  Lemma okapi_r_cleared h : history_ok pipeline h -> others_fine fits (r_okapi_step fits pipeline) h ->
    r_okapi_run fits pipeline (h ++ [TClear]) = okapi_state pipeline (without_refused fits (h ++ [TClear])).
  Proof.
    intros Hh Ho. pose proof (okapi_rel h Hh Ho) as HR.
    assert (Hw : history_ok pipeline (without_refused fits h ++ [TClear])).
    { apply (history_without fits) in Hh. unfold history_ok in *. rewrite lex_hist_app. cbn [lex_hist flat_map]. rewrite app_nil_r. exact Hh. }
    unfold without_refused. rewrite map_app. change (map _ h) with (without_refused fits h). cbn [map].
    unfold r_okapi_run, r_fold. rewrite fold_left_app. cbn [fold_left]. change (fold_left _ h _) with (r_okapi_run fits pipeline h).
    pose proof (cstate_snoc pipeline ci cu okapi_c_ok _ _ Hw) as E. unfold okapi_state, okapi_run in *.
    transitivity (fst (op_step pipeline ci cu TClear (fst (run_ops pipeline ci cu (without_refused fits h))))); [|rewrite E; reflexivity].
    cbn [op_step]. unfold r_okapi_step. cbn [op_step]. unfold clear, on_ix, smod. cbn [fst]. rewrite (rr_lx _ _ _ _ HR). f_equal. unfold ix_clear. rewrite (rr_tl _ _ _ _ HR). reflexivity.
  Qed.
  Lemma okapi_r_unaffected h : history_ok pipeline h -> (forall o, In o h -> refused fits o = false) ->
    r_okapi_run fits pipeline h = okapi_state pipeline h /\ others_fine fits (r_okapi_step fits pipeline) h.
  Proof.
    apply (unaffected fits f32Z pipeline okapi_fr ri ci ru cu).
    - intros d t. unfold r_okapi_index_doc. apply c_bind; [apply (c_index fits f32Z Z.eqb); unfold r_okapi_reindex; apply c_bind; [apply c_lift|]; intros w; apply c_bind; [apply c_total|]; intros _; apply c_reindex|].
      intros n. apply c_bind; [apply c_total|]. intros _. apply c_ret.
    - intros d s s' a. unfold r_okapi_unindex_doc. destruct (negb _); [intros [= <- _]; reflexivity|]. revert s s' a.
      refine (c_bind _ _ _ _); [apply c_lift|]. intros w. apply c_bind; [apply c_total|]. intros _. apply (c_unindex fits f32Z Z.eqb).
    - exact okapi_c_inv.
    - exact okapi_rel.
    - exact okapi_r_apart.
  Qed.
End OkapiR.

(** ** Cosine indexes *)
Section CosR.
  Variable fits : Z -> bool.
  Context {F : Type} {AF : Arith F} {SF : SafeArith F} {QF : SoundEq F}.
  Variable pipeline : list elem.
  Local Notation ri := (r_cos_index_doc (F := F) fits pipeline).
  Local Notation ru := (r_base_unindex_doc (V := F) fits).
  Local Notation ci := (cos_index_doc (F := F) pipeline).
  Local Notation cu := (base_unindex_doc (V := F)).
  Lemma cos_fkeys wids m w : cos_freqs wids = Ok (m, w) -> forall k, mem k m = true <-> In k wids.
  Proof. intros E. rewrite cos_freqs_fr in E. inversion E as [E1]. intros k. rewrite <- (cos_keys wids k). unfold cos_fr. cbn [fst]. rewrite E1. reflexivity. Qed.
  Lemma cos_ftotal (wids : list Z) : exists mw, cos_freqs (F := F) wids = Ok mw.
  Proof. eexists. apply cos_freqs_fr. Qed.
  Lemma cos_c_ok h : history_ok pipeline h -> snd (run_ops pipeline ci cu h) = Ok tt /\ slx (fst (run_ops pipeline ci cu h)) = lex_run pipeline (lex_hist h).
  Proof. intros H. destruct (cos_run_ok pipeline h H) as (s & E & El & _). unfold cos_run in E. rewrite E. auto. Qed.
  Lemma cos_i_sim bad d t : fits d = true -> simT fits pipeline bad t (ri d t) (ci d t).
  Proof.
    intros Hd. unfold r_cos_index_doc, cos_index_doc, cos_index_doc_with. apply (st_index fits f32 feqb); [exact cos_fkeys|exact Hd|]. apply st_reindex; [exact cos_fkeys|exact Hd].
  Qed.
  Lemma cos_i_bad bad d t s c : fits d = false -> bij (slx c) -> rrel fits bad s c ->
    exists s', ri d t s = (s', Raise TypeError) /\
      rrel fits (fun wid => bad wid \/ exists w, In w (text_words pipeline t) /\ get (lwids (lex_step pipeline (slx c) (LText t))) w = Some wid)
        s' (mkSys (lex_step pipeline (slx c) (LText t)) (six c)).
  Proof.
    intros Hd Hb Hr. exact (index_bad fits f32 feqb cos_freqs pipeline cos_fkeys bad _ d t s c Hd Hb cos_ftotal Hr).
  Qed.
  Lemma cos_u_sim bad d : simb fits bad [] (ru d) (cu d).
  Proof.
    apply (sb_unindex fits f32 feqb cos_freqs).
  Qed.
  Lemma cos_rel h : history_ok pipeline h -> others_fine fits (r_cos_step fits pipeline) h ->
    R fits pipeline h (r_cos_run fits pipeline h) (cos_state pipeline (without_refused fits h)).
  Proof. exact (run_rel fits pipeline ri ci ru cu cos_c_ok cos_i_sim cos_i_bad cos_u_sim h). Qed.
  Lemma cos_r_results h o : history_ok pipeline (h ++ [o]) -> others_fine fits (r_cos_step fits pipeline) h ->
    let r := snd (r_cos_step fits pipeline o (r_cos_run fits pipeline h)) in
    if refused fits o then r = Raise TypeError
    else r = Ok tt \/ (r = Raise TypeError /\ exists d t w, o = TIndex d t /\ In w (text_words pipeline t) /\ In w (refused_words fits pipeline h)).
  Proof. exact (results fits pipeline ri ci ru cu cos_c_ok cos_i_sim cos_i_bad cos_u_sim h o). Qed.
  Lemma cos_r_apart h : history_ok pipeline h -> apart fits pipeline h -> others_fine fits (r_cos_step fits pipeline) h.
  Proof. exact (apart_fine fits pipeline ri ci ru cu cos_c_ok cos_i_sim cos_i_bad cos_u_sim h). Qed.
  Lemma cos_r_contents h : history_ok pipeline h -> others_fine fits (r_cos_step fits pipeline) h ->
    let s := r_cos_run fits pipeline h in let c := cos_state pipeline (without_refused fits h) in
    slx s = slx c /\ documentCount (six s) = documentCount (six c) /\ totaldoclen (six s) = totaldoclen (six c) /\
    docweight (six s) = docweight (six c) /\ docwords (six s) = docwords (six c) /\
    forall d, r_has_doc fits (six s) d = has_doc (six c) d.
  Proof.
    intros Hh Ho s c. pose proof (cos_rel h Hh Ho) as HR. split; [apply HR|]. split; [apply HR|]. split; [apply HR|]. split; [apply HR|]. split; [apply HR|].
    intros d. exact (rr_has _ _ _ _ d HR).
  Qed.
  Lemma cos_r_answers h : history_ok pipeline h -> others_fine fits (r_cos_step fits pipeline) h ->
    let s := r_cos_run fits pipeline h in let c := cos_state pipeline (without_refused fits h) in
    (forall t, (forall w, In w (text_words pipeline t) -> ~ In w (refused_words fits pipeline h)) ->
       search pipeline (r_cos_search_wids fits) s t = search pipeline cos_search_wids c t /\ search_phrase pipeline (r_cos_search_wids fits) s t = search_phrase pipeline cos_search_wids c t) /\
    (forall p, (forall wids w, globToWordIds p (slx s) = Ok wids -> In w (refused_words fits pipeline h) -> ~ In (get_wid (slx s) w) wids) ->
       search_glob (r_cos_search_wids fits) s p = search_glob cos_search_wids c p).
  Proof.
    intros Hh Ho s c. pose proof (cos_rel h Hh Ho) as HR.
    pose proof (fun wids ix ix' => cos_agree (F := F) fits wids ix ix') as Ha.
    assert (Hb : bij (slx c)). { apply (cstate_bij pipeline ci cu cos_c_ok), history_without, Hh. }
    split; [intros t Ht; split|intros p Hp].
    - exact (search_agree fits pipeline _ _ Ha h s c Hb HR t Ht).
    - exact (phrase_agree fits pipeline _ _ Ha h s c Hb HR t Ht).
    - exact (glob_agree fits pipeline _ _ Ha h s c HR p Hp).
  Qed.
  Lemma cos_keeps_i ow d t : keeps fits ow (ri d t).
  Proof.
    unfold r_cos_index_doc. apply k_index. intros Hd. apply k_reindex, Hd.
  Qed.
  Lemma cos_keeps_u ow d : keeps fits ow (ru d).
  Proof.
    apply k_unindex.
  Qed.
  Lemma cos_c_inv h : history_ok pipeline h -> sysinv f32 cos_fr (fst (run_ops pipeline ci cu h)) (docs_of pipeline h).
  Proof. intros H. destruct (cos_run_ok pipeline h H) as (s & E & _ & Hi & _). unfold cos_run in E. rewrite E. exact Hi. Qed.
  Lemma cos_r_poison d t s ws1 w ws2 : fits d = false -> J fits None s -> text_words pipeline t = ws1 ++ w :: ws2 ->
    (forall x i, In x (ws1 ++ [w]) -> get (lwids (slx s)) x = Some i -> get (wordinfo (six s)) i = None) ->
    (forall i, get (wordinfo (six s)) i <> None -> exists x, get (lwids (slx s)) x = Some i) ->
    exists k, J fits (Some (w, k)) (fst (ri d t s)).
  Proof.
    exact (index_poison fits f32 cos_freqs pipeline cos_fkeys cos_ftotal _ d t s ws1 w ws2).
  Qed.
  Lemma cos_r_poisoned h1 d t ws1 w ws2 h2 : history_ok pipeline h1 -> others_fine fits (r_cos_step fits pipeline) h1 -> fits d = false -> text_words pipeline t = ws1 ++ w :: ws2 ->
    (forall x, In x (ws1 ++ [w]) -> ~ In x (vocabulary (docs_of pipeline (without_refused fits h1))) /\ ~ In x (refused_words fits pipeline h1)) ->
    ~ In TClear h2 -> counter_ok (lex_hist h2) ->
    let s := r_cos_run fits pipeline (h1 ++ TIndex d t :: h2) in
    (forall q, In w (text_words pipeline q) -> exists e, search pipeline (r_cos_search_wids fits) s q = Raise e) /\
    (forall p wids, globToWordIds p (slx s) = Ok wids -> In (get_wid (slx s) w) wids -> exists e, search_glob (r_cos_search_wids fits) s p = Raise e).
  Proof.
    intros H1 H2 H3 H4 H5 H6 H7 s.
    destruct (poisoned fits f32 cos_fr pipeline ri ci ru cu cos_keeps_i cos_keeps_u cos_keys cos_c_inv cos_rel cos_r_poison h1 d t ws1 w ws2 h2 H1 H2 H3 H4 H5 H6 H7) as [k Hk].
    pose proof (fun ix wids wid => cos_raises (F := F) fits ix wids wid) as Hr.
    split; [intros q Hq; exact (search_poison fits pipeline _ Hr s w k q Hk Hq)|intros p wids E Hin; exact (glob_poison fits _ Hr s w k p wids Hk E Hin)].
  Qed.
  Lemma cos_r_cleared h : history_ok pipeline h -> others_fine fits (r_cos_step fits pipeline) h ->
    r_cos_run fits pipeline (h ++ [TClear]) = cos_state pipeline (without_refused fits (h ++ [TClear])).
  Proof.
    intros Hh Ho. pose proof (cos_rel h Hh Ho) as HR.
    assert (Hw : history_ok pipeline (without_refused fits h ++ [TClear])).
    { apply (history_without fits) in Hh. unfold history_ok in *. rewrite lex_hist_app. cbn [lex_hist flat_map]. rewrite app_nil_r. exact Hh. }
    unfold without_refused. rewrite map_app. change (map _ h) with (without_refused fits h). cbn [map].
    unfold r_cos_run, r_fold. rewrite fold_left_app. cbn [fold_left]. change (fold_left _ h _) with (r_cos_run fits pipeline h).
    pose proof (cstate_snoc pipeline ci cu cos_c_ok _ _ Hw) as E. unfold cos_state, cos_run in *.
    transitivity (fst (op_step pipeline ci cu TClear (fst (run_ops pipeline ci cu (without_refused fits h))))); [|rewrite E; reflexivity].
    cbn [op_step]. unfold r_cos_step. cbn [op_step]. unfold clear, on_ix, smod. cbn [fst]. rewrite (rr_lx _ _ _ _ HR). f_equal. unfold ix_clear. rewrite (rr_tl _ _ _ _ HR). reflexivity.
  Qed.
  Lemma cos_r_unaffected h : history_ok pipeline h -> (forall o, In o h -> refused fits o = false) ->
    r_cos_run fits pipeline h = cos_state pipeline h /\ others_fine fits (r_cos_step fits pipeline) h.
  Proof.
    apply (unaffected fits f32 pipeline cos_fr ri ci ru cu).
    - intros d t. unfold r_cos_index_doc. apply (c_index fits f32 feqb), c_reindex.
    - intros d. apply (c_unindex fits f32 feqb).
    - exact cos_c_inv.
    - exact cos_rel.
    - exact cos_r_apart.
  Qed.
End CosR.

(** ** Checks of the hypotheses, for examples *)
Fixpoint check_apart (fits : Z -> bool) (pipeline : list elem) (pre h : list top) : bool :=
  match h with
  | [] => true
  | o :: h' => match o with
               | TIndex d t => negb (fits d) || forallb (fun w => negb (existsb (eqb w) (refused_words fits pipeline pre))) (text_words pipeline t)
               | _ => true
               end && check_apart fits pipeline (pre ++ [o]) h'
  end.
Lemma check_apart_ok fits pipeline h : check_apart fits pipeline [] h = true -> apart fits pipeline h.
Proof.
  intros H h1 d t h2 w E Hf Hw. assert (G : forall pre h, check_apart fits pipeline pre h = true -> h = h1 ++ TIndex d t :: h2 -> ~ In w (refused_words fits pipeline (pre ++ h1))); [|exact (G [] h H E)].
  clear h H E. revert h2. induction h1 as [|o h1 IH]; intros h2 pre h Hc ->; cbn [app check_apart] in Hc; apply andb_prop in Hc as [Hc1 Hc2].
  - rewrite Hf in Hc1. cbn in Hc1. rewrite app_nil_r. intros Hin. rewrite forallb_forall in Hc1. specialize (Hc1 w Hw).
    assert (Ex : existsb (eqb w) (refused_words fits pipeline pre) = true) by (apply existsb_exists; exists w; split; [exact Hin|apply eqb_eq; reflexivity]).
    rewrite Ex in Hc1. discriminate.
  - specialize (IH h2 (pre ++ [o]) _ Hc2 eq_refl). rewrite <- app_assoc in IH. exact IH.
Qed.
Fixpoint check_fine {V} (fits : Z -> bool) (step : top -> sx (sys V) unit) (s : sys V) (h : list top) : bool :=
  match h with
  | [] => true
  | o :: h' => (refused fits o || match snd (step o s) with Ok _ => true | Raise _ => false end) && check_fine fits step (fst (step o s)) h'
  end.
Lemma check_fine_ok {V} fits (step : top -> sx (sys V) unit) h : check_fine fits step (mkSys lex_new ix_new) h = true -> others_fine fits step h.
Proof.
  intros H h1 o h2 E Hr. unfold r_fold. revert h H E. generalize (mkSys (V := V) lex_new ix_new). induction h1 as [|x h1 IH]; intros s h H ->; cbn [app check_fine fold_left] in *; apply andb_prop in H as [H1 H2].
  - rewrite Hr in H1. cbn in H1. destruct (snd (step o s)) as [[]|]; [reflexivity|discriminate].
  - exact (IH _ _ H2 eq_refl).
Qed.
