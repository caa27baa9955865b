(** * Lemmas about the text index *)
From Verif Require Import L_widcode L_lexicon L_setops S_text Ord.

Lemma bool_eq_iff (a b : bool) : (a = true <-> b = true) -> a = b.
Proof. destruct a, b; intros [H1 H2]; auto; symmetry; auto. Qed.

(** ** Postings *)
Section Posting.
  Context {V : Type}.
  Variable rnd : V -> V.
  Variable veqb : V -> V -> bool.
  Variable freqs : list Z -> res (smap Z V * V).
  Variable fr : list Z -> smap Z V * V.
  Hypothesis veqb_eq : forall wids wids' w v v', get (fst (fr wids)) w = Some v -> get (fst (fr wids')) w = Some v' ->
    veqb v v' = true -> v = v'.
  Hypothesis freqs_fr : forall wids, freqs wids = Ok (fr wids).
  Hypothesis freqs_keys : forall wids w, mem w (fst (fr wids)) = true <-> In w wids.
  Variable pipeline : list elem.

  (** the weight as stored in a posting *)
  Definition stored (p : posting V) (v : V) : V := if p_dict p then v else rnd v.

  Definition Pinv (wi : smap Z (posting V)) (T : Z -> Z -> option V) : Prop :=
    forall w, match get wi w with
              | None => forall d, T w d = None
              | Some p => (exists d, T w d <> None) /\ forall d, get (p_map p) d = option_map (stored p) (T w d)
              end.
  Definition Winv (ix : bindex V) (T : Z -> Z -> option V) : Prop :=
    Pinv (wordinfo ix) T /\ wordCount ix = Zsize (wordinfo ix).
  Definition same_docs (ix ix' : bindex V) : Prop :=
    docweight ix' = docweight ix /\ docwords ix' = docwords ix /\ documentCount ix' = documentCount ix /\
    totaldoclen ix' = totaldoclen ix.
  Lemma same_docs_refl ix : same_docs ix ix.
  Proof. unfold same_docs; auto. Qed.
  Lemma same_docs_trans a b c : same_docs a b -> same_docs b c -> same_docs a c.
  Proof. unfold same_docs. intros (H1 & H2 & H3 & H4) (H5 & H6 & H7 & H8). splits; congruence. Qed.

  Definition upd (T : Z -> Z -> option V) (w d : Z) (v : option V) : Z -> Z -> option V :=
    fun w' d' => if (eqb w' w && eqb d' d)%bool then v else T w' d'.

  Lemma Winv_ext ix T T' : (forall w d, T w d = T' w d) -> Winv ix T -> Winv ix T'.
  Proof.
    intros HT [H H']. split; [|exact H']. intros w. specialize (H w). destruct (get (wordinfo ix) w) as [p|].
    - destruct H as [[d Hd] H]. split; [exists d; rewrite <- HT; exact Hd|]. intros d'. rewrite <- HT. apply H.
    - intros d. rewrite <- HT. apply H.
  Qed.

  Lemma convert_get (p : posting V) (T : Z -> Z -> option V) w :
    (forall d, get (p_map p) d = option_map (stored p) (T w d)) ->
    forall d, get (p_map (convert rnd p)) d = option_map (stored (convert rnd p)) (T w d).
  Proof.
    intros H d. unfold convert. destruct (p_dict p && (Zsize (p_map p) =? DICT_CUTOFF))%bool eqn:E; [|apply H].
    apply andb_true_iff in E as [E _]. cbn [p_map p_dict]. rewrite get_mmap, H. unfold stored. cbn [p_dict]. rewrite E.
    destruct (T w d); reflexivity.
  Qed.

  Lemma p_set_get (p : posting V) (T : Z -> Z -> option V) w d f :
    (forall d, get (p_map p) d = option_map (stored p) (T w d)) ->
    forall d', get (p_map (p_set rnd d f p)) d' = option_map (stored (p_set rnd d f p)) (upd T w d (Some f) w d').
  Proof.
    intros H d'. unfold p_set, upd, stored. cbn [p_map p_dict]. rewrite get_put, eqb_refl. cbn [andb].
    destruct (eqb d' d); cbn [option_map]; [reflexivity|]. apply H.
  Qed.

  (** both ways of adding an entry *)
  Lemma put_posting wi T w d f p : Pinv wi T ->
    (forall d, get (p_map p) d = option_map (stored p) (T w d)) ->
    Pinv (put w (p_set rnd d f p) wi) (upd T w d (Some f)).
  Proof.
    intros H Hp w'. rewrite get_put. destruct (eqb w' w) eqn:E.
    - apply eqb_eq in E as ->. split.
      + exists d. unfold upd. rewrite !eqb_refl. discriminate.
      + apply p_set_get. exact Hp.
    - specialize (H w'). unfold upd. destruct (get wi w') as [q|].
      + destruct H as [[d0 H0] H]. split; [exists d0|intros d1]; rewrite E; cbn [andb]; [exact H0|apply H].
      + intros d'. rewrite E. apply H.
  Qed.

  Lemma new_posting (T : Z -> Z -> option V) w : (forall d, T w d = None) ->
    forall d, get (p_map (mkPosting true (empty : smap Z V))) d = option_map (stored (mkPosting true empty)) (T w d).
  Proof. intros H d. cbn [p_map]. rewrite get_empty, H. reflexivity. Qed.

  Lemma add_wordinfo_ok ix T w f d : Winv ix T ->
    Winv (add_wordinfo rnd w f d ix) (upd T w d (Some f)) /\ same_docs ix (add_wordinfo rnd w f d ix).
  Proof.
    intros [H Hc]. pose proof (H w) as Hw. unfold add_wordinfo. destruct (get (wordinfo ix) w) as [p|] eqn:E.
    - destruct Hw as [_ Hw]. split; [|unfold same_docs; cbn; auto]. split.
      + cbn [wordinfo set_wordinfo]. apply put_posting; [exact H|]. apply convert_get. exact Hw.
      + cbn [wordinfo set_wordinfo wordCount]. rewrite (Zsize_put_old _ _ _ _ E). exact Hc.
    - split; [|unfold same_docs; cbn; auto]. split.
      + cbn [wordinfo set_wordinfo change_wordCount]. apply put_posting; [exact H|]. apply new_posting. exact Hw.
      + cbn [wordinfo set_wordinfo change_wordCount wordCount]. rewrite (Zsize_put_new _ _ _ E). lia.
  Qed.

  Lemma mass_step_ok d wi n T kv : Pinv wi T ->
    let '(wi', n') := mass_step rnd d (wi, n) kv in
    Pinv wi' (upd T (fst kv) d (Some (snd kv))) /\ Zsize wi' - Zsize wi = n' - n.
  Proof.
    intros H. pose proof (H (fst kv)) as Hw. unfold mass_step. destruct (get wi (fst kv)) as [p|] eqn:E.
    - split; [apply put_posting; [exact H|]; apply convert_get, Hw|]. rewrite (Zsize_put_old _ _ _ _ E). lia.
    - split; [apply put_posting; [exact H|]; apply new_posting, Hw|]. rewrite (Zsize_put_new _ _ _ E). lia.
  Qed.

  Lemma fold_upd_get d (l : list (Z * V)) T w' d' : NoDup (map fst l) ->
    fold_left (fun T kv => upd T (fst kv) d (Some (snd kv))) l T w' d' =
    if eqb d' d then match rget l w' with Some v => Some v | None => T w' d' end else T w' d'.
  Proof.
    revert T; induction l as [|[k v] l IH]; intros T Hn; cbn [fold_left rget].
    - destruct (eqb d' d); reflexivity.
    - inversion Hn as [|? ? Hk Hn']; subst. rewrite IH by exact Hn'. unfold upd. cbn [fst snd].
      destruct (eqb d' d) eqn:Ed; rewrite ?andb_false_r; [|reflexivity]. rewrite andb_true_r.
      destruct (eqb w' k) eqn:Ew.
      + apply eqb_eq in Ew as ->. apply rget_None_notin in Hk. rewrite Hk, ?eqb_refl. reflexivity.
      + reflexivity.
  Qed.

  Lemma mass_add_ok ix T (m : smap Z V) d : Winv ix T ->
    Winv (mass_add_wordinfo rnd m d ix)
         (fun w' d' => if eqb d' d then match get m w' with Some v => Some v | None => T w' d' end else T w' d') /\
    same_docs ix (mass_add_wordinfo rnd m d ix).
  Proof.
    intros [H Hc]. unfold mass_add_wordinfo.
    assert (G : forall l wi n T, Pinv wi T ->
      let '(wi', n') := fold_left (mass_step rnd d) l (wi, n) in
      Pinv wi' (fold_left (fun T kv => upd T (fst kv) d (Some (snd kv))) l T) /\ Zsize wi' - Zsize wi = n' - n).
    { induction l as [|kv l IH]; intros wi n T0 H0; cbn [fold_left].
      - split; [exact H0|lia].
      - pose proof (mass_step_ok d wi n T0 kv H0) as Hs. destruct (mass_step rnd d (wi, n) kv) as [wi1 n1].
        destruct Hs as [H1 H2]. specialize (IH wi1 n1 _ H1). destruct (fold_left _ l (wi1, n1)) as [wi2 n2].
        destruct IH as [H3 H4]. split; [exact H3|lia]. }
    specialize (G (elts m) (wordinfo ix) 0 T H). destruct (fold_left (mass_step rnd d) (elts m) (wordinfo ix, 0)) as [wi n].
    destruct G as [G1 G2]. split; [|unfold same_docs; cbn; auto]. apply (Winv_ext _ (fold_left (fun T kv => upd T (fst kv) d (Some (snd kv))) (elts m) T)).
    - intros w' d'. rewrite fold_upd_get by apply keys_NoDup. reflexivity.
    - split; [exact G1|]. cbn [wordCount change_wordCount set_wordinfo wordinfo]. lia.
  Qed.

  Lemma del_wordinfo_ok s T w d : Winv (six s) T -> T w d <> None ->
    exists ix', del_wordinfo w d s = (mkSys (slx s) ix', Ok tt) /\ Winv ix' (upd T w d None) /\ same_docs (six s) ix'.
  Proof.
    intros [H Hc] HT. pose proof (H w) as Hw. unfold del_wordinfo, sbind, slift, on_ix, smod, item.
    destruct (get (wordinfo (six s)) w) as [p|] eqn:E; [|rewrite Hw in HT; contradiction].
    destruct Hw as [_ Hw]. rewrite (Hw d). destruct (T w d) as [v|] eqn:Ev; [|contradiction]. cbn [option_map].
    set (p' := mkPosting (p_dict p) (del d (p_map p))).
    assert (Hp' : forall d', get (p_map p') d' = option_map (stored p') (upd T w d None w d')).
    { intros d'. unfold p', upd, stored. cbn [p_map p_dict]. rewrite get_del, eqb_refl. cbn [andb].
      destruct (eqb d' d); [reflexivity|]. apply Hw. }
    destruct (is_empty (p_map p')) eqn:Ee.
    - eexists. split; [reflexivity|]. split; [|unfold same_docs; cbn; auto]. split.
      + cbn [wordinfo set_wordinfo change_wordCount]. intros w'. rewrite get_del. destruct (eqb w' w) eqn:Ew.
        * apply eqb_eq in Ew as ->. intros d'. specialize (Hp' d'). rewrite is_empty_get in Ee. rewrite Ee in Hp'.
          destruct (upd T w d None w d'); [discriminate|reflexivity].
        * specialize (H w'). unfold upd. destruct (get (wordinfo (six s)) w') as [q|].
          -- destruct H as [[d0 H0] H]. split; [exists d0|intros d1]; rewrite Ew; cbn [andb]; [exact H0|apply H].
          -- intros d'. rewrite Ew. apply H.
      + cbn [wordinfo set_wordinfo change_wordCount wordCount]. rewrite (Zsize_del _ _ _ E). lia.
    - eexists. split; [reflexivity|]. split; [|unfold same_docs; cbn; auto]. split.
      + cbn [wordinfo set_wordinfo]. intros w'. rewrite get_put. destruct (eqb w' w) eqn:Ew.
        * apply eqb_eq in Ew as ->. split; [|exact Hp']. apply is_empty_false in Ee as (d0 & v0 & E0).
          exists d0. rewrite Hp' in E0. destruct (upd T w d None w d0); discriminate.
        * specialize (H w'). unfold upd. destruct (get (wordinfo (six s)) w') as [q|].
          -- destruct H as [[d0 H0] H]. split; [exists d0|intros d1]; rewrite Ew; cbn [andb]; [exact H0|apply H].
          -- intros d'. rewrite Ew. apply H.
      + cbn [wordinfo set_wordinfo wordCount]. rewrite (Zsize_put_old _ _ _ _ E). exact Hc.
  Qed.

  Lemma siter_cons {S A} (f : A -> sx S unit) x l s s1 : f x s = (s1, Ok tt) -> siter f (x :: l) s = siter f l s1.
  Proof. intros E. cbn [siter]. unfold sbind. rewrite E. reflexivity. Qed.

  Lemma del_loop d l : forall s T, Winv (six s) T -> NoDup l -> (forall w, In w l -> T w d <> None) ->
    exists ix', siter (fun w => del_wordinfo w d) l s = (mkSys (slx s) ix', Ok tt) /\ same_docs (six s) ix' /\
      Winv ix' (fun w' d' => if (eqb d' d && existsb (eqb w') l)%bool then None else T w' d').
  Proof.
    induction l as [|w l IH]; intros s T H Hn Hl.
    - exists (six s). split; [destruct s; reflexivity|]. split; [apply same_docs_refl|].
      refine (Winv_ext _ _ _ _ H). intros w d'. cbn [existsb]. rewrite andb_false_r. reflexivity.
    - inversion Hn as [|? ? Hw Hn']; subst.
      destruct (del_wordinfo_ok s T w d H (Hl w (or_introl eq_refl))) as (ix1 & E1 & H1 & S1).
      destruct (IH (mkSys (slx s) ix1) _ H1 Hn') as (ix2 & E2 & S2 & H2).
      { intros w' Hw'. unfold upd. destruct (eqb w' w) eqn:E; [apply eqb_eq in E as ->; contradiction|].
        cbn [andb]. apply Hl. right. exact Hw'. }
      exists ix2. split; [erewrite siter_cons; [exact E2|exact E1]|].
      split; [exact (same_docs_trans _ _ _ S1 S2)|]. refine (Winv_ext _ _ _ _ H2). intros w' d'. unfold upd. cbn [existsb].
      destruct (eqb d' d), (eqb w' w), (existsb (eqb w') l); reflexivity.
  Qed.

  Lemma add_loop (m : smap Z V) d l : forall s T, Winv (six s) T -> (forall w, In w l -> get m w <> None) ->
    exists ix', siter (fun wid => sdo w <- slift (fun _ => item m wid); on_ix (add_wordinfo rnd wid w d)) l s
                  = (mkSys (slx s) ix', Ok tt) /\ same_docs (six s) ix' /\
      Winv ix' (fun w' d' => if (eqb d' d && existsb (eqb w') l)%bool then get m w' else T w' d').
  Proof.
    induction l as [|w l IH]; intros s T H Hl.
    - exists (six s). split; [destruct s; reflexivity|]. split; [apply same_docs_refl|].
      refine (Winv_ext _ _ _ _ H). intros w d'. cbn [existsb]. rewrite andb_false_r. reflexivity.
    - destruct (get m w) as [v|] eqn:Ev; [|destruct (Hl w (or_introl eq_refl) Ev)].
      destruct (add_wordinfo_ok (six s) T w v d H) as [H1 S1].
      destruct (IH (mkSys (slx s) (add_wordinfo rnd w v d (six s))) _ H1) as (ix2 & E2 & S2 & H2).
      { intros w' Hw'. apply Hl. right. exact Hw'. }
      exists ix2. split; [|split; [exact (same_docs_trans _ _ _ S1 S2)|]].
      + erewrite siter_cons; [exact E2|]. unfold sbind, slift, item. rewrite Ev. reflexivity.
      + refine (Winv_ext _ _ _ _ H2). intros w' d'. unfold upd. cbn [existsb].
        destruct (eqb d' d), (eqb w' w) eqn:E, (existsb (eqb w') l); try reflexivity.
        cbn. apply eqb_eq in E as ->. symmetry. exact Ev.
  Qed.

  Lemma both_loop (m m0 : smap Z V) d l : forall s T, Winv (six s) T -> NoDup l ->
    (forall w, In w l -> get m w <> None /\ get m0 w <> None /\ T w d = get m0 w) ->
    (forall w v0 v, get m0 w = Some v0 -> get m w = Some v -> veqb v0 v = true -> v0 = v) ->
    exists ix', siter (fun wid =>
        sdo newscore <- slift (fun _ => item m wid);
        sdo oldscore <- slift (fun _ => item m0 wid);
        if negb (veqb oldscore newscore) then on_ix (add_wordinfo rnd wid newscore d) else sret tt) l s
                  = (mkSys (slx s) ix', Ok tt) /\ same_docs (six s) ix' /\
      Winv ix' (fun w' d' => if (eqb d' d && existsb (eqb w') l)%bool then get m w' else T w' d').
  Proof.
    induction l as [|w l IH]; intros s T H Hn Hl Hq.
    - exists (six s). split; [destruct s; reflexivity|]. split; [apply same_docs_refl|].
      refine (Winv_ext _ _ _ _ H). intros w d'. cbn [existsb]. rewrite andb_false_r. reflexivity.
    - inversion Hn as [|? ? Hw Hn']; subst. destruct (Hl w (or_introl eq_refl)) as (Hm & Hm0 & HT).
      destruct (get m w) as [v|] eqn:Ev; [|contradiction]. destruct (get m0 w) as [v0|] eqn:Ev0; [|contradiction].
      assert (Hx : exists ix1, (sdo newscore <- slift (fun _ => item m w);
        sdo oldscore <- slift (fun _ => item m0 w);
        if negb (veqb oldscore newscore) then on_ix (add_wordinfo rnd w newscore d) else sret tt) s = (mkSys (slx s) ix1, Ok tt) /\
        Winv ix1 (upd T w d (Some v)) /\ same_docs (six s) ix1).
      { unfold sbind, slift, item. rewrite Ev, Ev0. destruct (veqb v0 v) eqn:Eq; cbn [negb].
        - exists (six s). split; [destruct s; reflexivity|]. split; [|apply same_docs_refl].
          refine (Winv_ext _ _ _ _ H). intros w' d'. unfold upd. destruct (eqb w' w && eqb d' d)%bool eqn:E; [|reflexivity].
          apply andb_true_iff in E as [E1 E2]. apply eqb_eq in E1 as ->. apply eqb_eq in E2 as ->.
          rewrite HT. f_equal. exact (Hq w v0 v Ev0 Ev Eq).
        - exists (add_wordinfo rnd w v d (six s)). split; [reflexivity|]. apply add_wordinfo_ok. exact H. }
      destruct Hx as (ix1 & E1 & H1 & S1).
      destruct (IH (mkSys (slx s) ix1) _ H1 Hn') as (ix2 & E2 & S2 & H2).
      { intros w' Hw'. destruct (Hl w' (or_intror Hw')) as (A1 & A2 & A3). splits; [exact A1|exact A2|].
        unfold upd. destruct (eqb w' w) eqn:E; [apply eqb_eq in E as ->; contradiction|]. exact A3. }
      { exact Hq. }
      exists ix2. split; [|split; [exact (same_docs_trans _ _ _ S1 S2)|]].
      + erewrite siter_cons; [exact E2|exact E1].
      + refine (Winv_ext _ _ _ _ H2). intros w' d'. unfold upd. cbn [existsb].
        destruct (eqb d' d), (eqb w' w) eqn:E, (existsb (eqb w') l); try reflexivity.
        cbn. apply eqb_eq in E as ->. symmetry. exact Ev.
  Qed.

  (** ** The index for given word id lists of the documents *)
  Definition targets (E : smap Z (list Z)) (w d : Z) : option V :=
    match get E d with Some wids => get (fst (fr wids)) w | None => None end.

  Definition codes (wids : list Z) : str := concat (map code wids).
  Record ixinv (ix : bindex V) (E : smap Z (list Z)) : Prop := {
    iv_range : forall d wids, get E d = Some wids -> Forall wid_ok wids;
    iv_words : forall d, get (docwords ix) d = option_map codes (get E d);
    iv_weight : forall d, get (docweight ix) d = option_map (fun wids => rnd (snd (fr wids))) (get E d);
    iv_info : Winv ix (targets E);
    iv_count : documentCount ix = Zsize E
  }.

  Lemma ixinv_new : ixinv ix_new empty.
  Proof.
    constructor; try reflexivity.
    - intros d wids. rewrite get_empty. discriminate.
    - split; [|reflexivity]. intros w. cbn [ix_new wordinfo]. rewrite get_empty. intros d. reflexivity.
  Qed.

  Lemma ixinv_clear ix : ixinv (ix_clear ix) empty.
  Proof.
    constructor; try reflexivity.
    - intros d wids. rewrite get_empty. discriminate.
    - split; [|reflexivity]. intros w. cbn [ix_clear wordinfo]. rewrite get_empty. intros d. reflexivity.
  Qed.

  Lemma has_doc_E ix E d : ixinv ix E -> has_doc ix d = mem d E.
  Proof. intros H. unfold has_doc, mem. rewrite (iv_words _ _ H). destruct (get E d); reflexivity. Qed.

  Lemma get_words_E ix E d : ixinv ix E ->
    get_words ix d = match get E d with Some wids => Ok wids | None => Raise KeyError end.
  Proof.
    intros H. unfold get_words, item. rewrite (iv_words _ _ H).
    destruct (get E d) as [wids|] eqn:Ed; cbn [option_map]; [|reflexivity].
    cbn [bind]. apply decode_codes. exact (iv_range _ _ H _ _ Ed).
  Qed.

  Lemma targets_put E d wids w d' :
    targets (put d wids E) w d' = if eqb d' d then get (fst (fr wids)) w else targets E w d'.
  Proof. unfold targets. rewrite get_put. destruct (eqb d' d); reflexivity. Qed.
  Lemma targets_del E d w d' : targets (del d E) w d' = if eqb d' d then None else targets E w d'.
  Proof. unfold targets. rewrite get_del. destruct (eqb d' d); reflexivity. Qed.

  (** what the lexicon call gives *)
  Lemma index_new_ok re d t s lx' wids E :
    ixinv (six s) E -> get E d = None ->
    sourceToWordIds pipeline t (slx s) = (lx', Ok wids) -> Forall wid_ok wids ->
    exists ix', base_index_doc rnd freqs pipeline re d t s = (mkSys lx' ix', Ok (Zlen wids)) /\
      ixinv ix' (put d wids E) /\ totaldoclen ix' = totaldoclen (six s).
  Proof.
    intros H Hd Hs Hw. unfold base_index_doc, base_index_doc_with. rewrite (has_doc_E _ _ _ H). replace (mem d E) with false by (symmetry; apply mem_false; exact Hd).
    unfold sbind at 1, source. rewrite Hs. cbv iota beta.
    unfold sbind at 1, slift at 1. rewrite freqs_fr. destruct (fr wids) as [m dw] eqn:Ef.
    destruct (mass_add_ok (six s) (targets E) m d (iv_info _ _ H)) as [H1 S1].
    set (ix1 := mass_add_wordinfo rnd m d (six s)) in *. destruct S1 as (S1 & S2 & S3 & S4).
    unfold sbind, on_ix, smod, slift, sret. cbn [six slx]. rewrite (encode_concat _ Hw).
    eexists. split; [reflexivity|]. cbn [totaldoclen change_documentCount set_docwords set_docweight]. split; [|exact S4].
    constructor; cbn [docwords docweight wordinfo documentCount change_documentCount set_docwords set_docweight].
    - intros d' wids'. rewrite get_put. destruct (eqb d' d); [intros [= <-]; exact Hw|apply (iv_range _ _ H)].
    - intros d'. fold ix1. rewrite S2, !get_put. destruct (eqb d' d); [reflexivity|]. apply (iv_words _ _ H).
    - intros d'. fold ix1. rewrite S1, !get_put. destruct (eqb d' d); [cbn [option_map]; rewrite Ef; reflexivity|]. apply (iv_weight _ _ H).
    - destruct H1 as [H1 H1']. split; cbn [wordinfo wordCount change_documentCount set_docwords set_docweight]; [|exact H1'].
      refine (proj1 (Winv_ext ix1 _ _ _ (conj H1 H1'))). intros w d'. rewrite targets_put, Ef. cbn [fst].
      destruct (eqb d' d) eqn:E1; [|reflexivity]. apply eqb_eq in E1 as ->. unfold targets. rewrite Hd.
      destruct (get m w); reflexivity.
    - fold ix1. rewrite S3, (iv_count _ _ H), (Zsize_put_new _ _ _ Hd). reflexivity.
  Qed.

  Lemma reindex_ok d t s lx' wids E old :
    ixinv (six s) E -> get E d = Some old ->
    sourceToWordIds pipeline t (slx s) = (lx', Ok wids) -> Forall wid_ok wids ->
    exists ix', base_reindex rnd veqb freqs pipeline d t s = (mkSys lx' ix', Ok (Zlen wids)) /\
      ixinv ix' (put d wids E) /\ totaldoclen ix' = totaldoclen (six s).
  Proof.
    intros H Hd Hs Hw. unfold base_reindex, base_reindex_with. unfold sbind at 1, slift at 1. rewrite (get_words_E _ _ _ H), Hd.
    unfold sbind at 1, slift at 1. rewrite freqs_fr, (surjective_pairing (fr old)).
    unfold sbind at 1, source. rewrite Hs. cbv iota beta.
    unfold sbind at 1, slift at 1. rewrite freqs_fr. destruct (fr wids) as [m dw] eqn:Ef.
    set (m0 := fst (fr old)). set (both := sinter _ _).
    assert (Hboth : forall w, mem w both = (mem w m0 && mem w m)%bool).
    { intros w. unfold both. rewrite mem_sinter, !mem_set_of_list. f_equal; apply bool_eq_iff;
      rewrite existsb_eqb_In, keys_mem; reflexivity. }
    assert (Hmem : forall (m : smap Z V) w, mem w (set_of_list (keys m)) = mem w m).
    { intros m' w. apply bool_eq_iff. rewrite mem_set_of_list_In, keys_mem. reflexivity. }
    assert (Hel : forall (s : sset Z) w, existsb (eqb w) (selems s) = mem w s).
    { intros s' w. apply bool_eq_iff. rewrite existsb_eqb_In. apply selems_In. }
    destruct (del_loop d (selems (mdiff (set_of_list (keys m0)) both)) (mkSys lx' (six s)) _ (iv_info _ _ H)) as (ix1 & E1 & S1 & H1).
    { apply keys_NoDup. }
    { intros w Hin. apply selems_In in Hin. rewrite mem_mdiff, Hmem in Hin. apply andb_true_iff in Hin as [Hin _].
      unfold targets. rewrite Hd. apply mem_get in Hin as [v Hv]. unfold m0 in Hv. rewrite Hv. discriminate. }
    unfold sbind at 1. cbv beta in E1. rewrite E1. clear E1. cbn [slx six] in *.
    destruct (add_loop m d (selems (mdiff (set_of_list (keys m)) both)) (mkSys lx' ix1) _ H1) as (ix2 & E2 & S2 & H2).
    { intros w Hin. apply selems_In in Hin. rewrite mem_mdiff, Hmem in Hin. apply andb_true_iff in Hin as [Hin _].
      apply mem_get in Hin as [v Hv]. rewrite Hv. discriminate. }
    unfold sbind at 1. rewrite E2. clear E2. cbn [slx six] in *.
    destruct (both_loop m m0 d (selems both) (mkSys lx' ix2) _ H2) as (ix3 & E3 & S3 & H3).
    { apply keys_NoDup. }
    { intros w Hin. apply selems_In in Hin. pose proof Hin as Hb. rewrite Hboth in Hin. apply andb_true_iff in Hin as [Hi0 Hi].
      rewrite eqb_refl, !Hel, !mem_mdiff, !Hmem, Hb, !andb_false_r. unfold targets. rewrite Hd. fold m0.
      apply mem_get in Hi as [v ->]. apply mem_get in Hi0 as [v0 ->]. splits; discriminate || reflexivity. }
    { intros w v0 v H0 Hv. apply (veqb_eq old wids w); [exact H0|]. rewrite Ef. exact Hv. }
    unfold sbind at 1. rewrite E3. clear E3. cbn [slx six] in *.
    unfold sbind, on_ix, smod, slift, sret. cbn [six slx]. rewrite (encode_concat _ Hw).
    destruct (same_docs_trans _ _ _ S1 (same_docs_trans _ _ _ S2 S3)) as (Q1 & Q2 & Q3 & Q4).
    eexists. split; [reflexivity|]. cbn [totaldoclen set_docwords set_docweight]. split; [|exact Q4].
    constructor; cbn [docwords docweight wordinfo documentCount set_docwords set_docweight].
    - intros d' wids'. rewrite get_put. destruct (eqb d' d); [intros [= <-]; exact Hw|apply (iv_range _ _ H)].
    - intros d'. rewrite Q2, !get_put. destruct (eqb d' d); [reflexivity|]. apply (iv_words _ _ H).
    - intros d'. rewrite Q1, !get_put. destruct (eqb d' d); [cbn [option_map]; rewrite Ef; reflexivity|]. apply (iv_weight _ _ H).
    - destruct H3 as [H3 H3']. split; cbn [wordinfo wordCount set_docwords set_docweight]; [|exact H3'].
      refine (proj1 (Winv_ext ix3 _ _ _ (conj H3 H3'))). intros w d'. rewrite targets_put, Ef. cbn [fst].
      destruct (eqb d' d) eqn:Ed; cbn [andb]; [|reflexivity]. apply eqb_eq in Ed as ->.
      rewrite !Hel, !mem_mdiff, !Hmem, !Hboth. unfold targets. rewrite Hd. fold m0.
      unfold mem, is_some. destruct (get m w), (get m0 w); reflexivity.
    - rewrite Q3, (iv_count _ _ H), (Zsize_put_old _ _ _ _ Hd). reflexivity.
  Qed.

  Lemma unindex_ok d s E old : ixinv (six s) E -> get E d = Some old ->
    exists ix', base_unindex_doc d s = (mkSys (slx s) ix', Ok tt) /\ ixinv ix' (del d E) /\
      totaldoclen ix' = totaldoclen (six s).
  Proof.
    intros H Hd. unfold base_unindex_doc. rewrite (has_doc_E _ _ _ H).
    replace (mem d E) with true by (symmetry; apply mem_get; eauto). cbn [negb].
    unfold sbind at 1, slift at 1. rewrite (get_words_E _ _ _ H), Hd.
    assert (Hel : forall w, existsb (eqb w) (selems (set_of_list old)) = mem w (fst (fr old))).
    { intros w. apply bool_eq_iff. rewrite existsb_eqb_In, selems_In, mem_set_of_list_In. symmetry. apply freqs_keys. }
    destruct (del_loop d (selems (set_of_list old)) s _ (iv_info _ _ H)) as (ix1 & E1 & S1 & H1).
    { apply keys_NoDup. }
    { intros w Hin. unfold targets. rewrite Hd. apply existsb_eqb_In in Hin. rewrite Hel in Hin.
      apply mem_get in Hin as [v ->]. discriminate. }
    unfold sbind at 1. rewrite E1. clear E1. destruct S1 as (S1 & S2 & S3 & S4).
    unfold delitem, sbind, on_ix, smod, slift, item. cbn [six slx docwords docweight set_docwords].
    rewrite S2, (iv_words _ _ H), Hd. cbn [option_map six slx docwords docweight set_docwords]. rewrite S1, (iv_weight _ _ H), Hd. cbn [option_map].
    eexists. split; [reflexivity|]. cbn [totaldoclen set_docwords set_docweight change_documentCount]. split; [|exact S4].
    constructor; cbn [docwords docweight wordinfo documentCount set_docwords set_docweight change_documentCount six].
    - intros d' wids'. rewrite get_del. destruct (eqb d' d); [discriminate|apply (iv_range _ _ H)].
    - intros d'. rewrite ?S2, !get_del. destruct (eqb d' d); [reflexivity|]. apply (iv_words _ _ H).
    - intros d'. rewrite ?S1, !get_del. destruct (eqb d' d); [reflexivity|]. apply (iv_weight _ _ H).
    - destruct H1 as [H1 H1']. split; cbn [wordinfo wordCount set_docwords set_docweight change_documentCount]; [|exact H1'].
      refine (proj1 (Winv_ext ix1 _ _ _ (conj H1 H1'))). intros w d'. rewrite targets_del.
      destruct (eqb d' d) eqn:Ed; cbn [andb]; [|reflexivity]. apply eqb_eq in Ed as ->. rewrite Hel.
      destruct (mem w (fst (fr old))) eqn:Em; [reflexivity|]. unfold targets. rewrite Hd. apply mem_false. exact Em.
    - rewrite S3, (iv_count _ _ H), (Zsize_del _ _ _ Hd). lia.
  Qed.

  Lemma unindex_none d s E : ixinv (six s) E -> get E d = None -> base_unindex_doc d s = (s, Ok tt).
  Proof.
    intros H Hd. unfold base_unindex_doc. rewrite (has_doc_E _ _ _ H).
    replace (mem d E) with false by (symmetry; apply mem_false; exact Hd). reflexivity.
  Qed.
End Posting.
