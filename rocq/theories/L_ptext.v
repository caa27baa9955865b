(** * Lemmas: a text index in a ZODB *)
From Verif Require Import L_textsys S_ptext M_ptext SMap Ord.

(** ** Mappings and counters *)
Section StoredL.
  Context {K : Type} `{OK : Ord K} {X : Type}.
  Implicit Types (m : stored K X) (k : K).
  Definition sok m : Prop := forall k, mem k (marks m) = false -> get (live m) k = get (saved m) k.
  Lemma get_mixed ks (a b : smap K X) k : get (mixed ks a b) k = if mem k ks then get a k else get b k.
  Proof.
    unfold mixed. rewrite get_merge by reflexivity. rewrite get_merge by reflexivity. unfold mem.
    destruct (get ks k) as [[]|]; [|reflexivity]. destruct (get a k); reflexivity.
  Qed.
  Lemma sok_new : sok s_new.
  Proof. intros k _. reflexivity. Qed.
  Lemma sok_put k x m : sok m -> sok (s_put k x m).
  Proof.
    intros H k' Hk. cbn [s_put marks live saved] in *. rewrite mem_sadd in Hk. apply orb_false_iff in Hk as [Hk Hm].
    rewrite get_put, Hk. exact (H _ Hm).
  Qed.
  Lemma sok_del k m : sok m -> sok (s_del k m).
  Proof.
    intros H k' Hk. cbn [s_del marks live saved] in *. rewrite mem_sadd in Hk. apply orb_false_iff in Hk as [Hk Hm].
    rewrite get_del, Hk. exact (H _ Hm).
  Qed.
  (** a change in place is all right when the key is assigned or deleted afterwards *)
  Lemma put_inplace k x x' m : s_put k x (s_inplace k x' m) = s_put k x m.
  Proof. unfold s_put, s_inplace. cbn [live saved marks]. rewrite put_put. reflexivity. Qed.
  Lemma del_inplace k x' m : s_del k (s_inplace k x' m) = s_del k m.
  Proof. unfold s_del, s_inplace. cbn [live saved marks]. rewrite del_put. reflexivity. Qed.
  Lemma commit_eq ks m : sok m -> s_commit ks m = mkStored (live m) (live m) empty.
  Proof.
    intros H. unfold s_commit. f_equal. apply smap_ext. intros k. rewrite get_mixed, mem_sunion.
    destruct (mem k (marks m)) eqn:E; [reflexivity|]. destruct (mem k ks); [reflexivity|]. cbn [orb]. symmetry. exact (H k E).
  Qed.
  Lemma abort_eq ks m : sok m -> s_abort ks m = mkStored (saved m) (saved m) empty.
  Proof.
    intros H. unfold s_abort. f_equal. apply smap_ext. intros k. rewrite get_mixed, mem_sunion.
    destruct (mem k (marks m)) eqn:E; [reflexivity|]. destruct (mem k ks); [reflexivity|]. cbn [orb]. exact (H k E).
  Qed.
  Lemma evict_eq ks m : sok m -> s_evict ks m = m.
  Proof.
    intros H. unfold s_evict. destruct m as [l s d]. cbn [live saved marks] in *. f_equal. apply smap_ext. intros k.
    rewrite get_mixed, mem_mdiff. destruct (mem k d) eqn:E; [rewrite andb_false_r; reflexivity|].
    destruct (mem k ks); [|reflexivity]. cbn. symmetry. exact (H k E).
  Qed.
  Lemma sok_same (a : smap K X) : sok (mkStored a a empty).
  Proof. intros k _. reflexivity. Qed.
End StoredL.

Definition nok (c : cell) : Prop := n_mark c = false -> n_live c = n_saved c.
Lemma nok_new : nok n_new. Proof. intros _. reflexivity. Qed.
Lemma nok_change d c : nok (n_change d c). Proof. intros E. discriminate E. Qed.
Lemma nok_set d c : nok (n_set d c). Proof. intros E. discriminate E. Qed.
Lemma n_commit_eq c : nok c -> n_commit c = mkCell (n_live c) (n_live c) false.
Proof. destruct c as [a b []]; unfold nok, n_commit; cbn; [reflexivity|]. intros H. rewrite H by reflexivity. reflexivity. Qed.
Lemma n_abort_eq c : nok c -> n_abort c = mkCell (n_saved c) (n_saved c) false.
Proof. destruct c as [a b []]; unfold nok, n_abort; cbn; [reflexivity|]. intros H. rewrite H by reflexivity. reflexivity. Qed.
Lemma n_evict_eq c : nok c -> n_evict c = c.
Proof. destruct c as [a b []]; unfold nok, n_evict; cbn; [reflexivity|]. intros H. rewrite H by reflexivity. reflexivity. Qed.
Lemma nok_same a : nok (mkCell a a false). Proof. intros _. reflexivity. Qed.

Lemma pair_inv {A B} (a a' : A) (b b' : B) : (a, b) = (a', b') -> a = a' /\ b = b'.
Proof. intros E. injection E. auto. Qed.

Section Sim.
  Context {V : Type}.
  Variable rnd : V -> V.
  Variable veqb : V -> V -> bool.
  Variable freqs : list Z -> res (smap Z V * V).
  Variable pipeline : list elem.
  Notation dbst := (dbst V).
  Notation sys := (sys V).

  Record parts_ok (c : parts V) : Prop := mkPok {
    po_wi : sok (c_wordinfo c); po_dw : sok (c_docweight c); po_ds : sok (c_docwords c);
    po_wc : nok (c_wordCount c); po_dc : nok (c_documentCount c)
  }.
  (** no two words share an IF BTree *)
  Definition own (n : Z) (m : smap Z (pobj V)) : Prop :=
    forall k r, get m k = Some (PTree r) -> r < n /\ forall k', get m k' = Some (PTree r) -> k' = k.
  Record inv (st : dbst) : Prop := mkInv {
    i_wids : sok (d_wids st); i_words : sok (d_words st); i_count : nok (d_lexCount st);
    i_parts : parts_ok (d_parts st);
    i_old : forall c, d_old st = Some c -> parts_ok c;
    i_trees : sok (d_trees st); i_total : nok (d_total st);
    i_live : own (d_fresh st) (live (c_wordinfo (d_parts st)));
    i_saved : own (d_fresh st) (saved (c_wordinfo (db_base st)))
  }.
  Lemma own_empty n : own n empty.
  Proof. intros k r E. discriminate E. Qed.
  Lemma own_mono n n' m : n <= n' -> own n m -> own n' m.
  Proof. intros Hn H k r E. destruct (H k r E) as [H1 H2]. split; [lia|exact H2]. Qed.
  Lemma own_dict n k x m : own n m -> own n (put k (PDict x) m).
  Proof.
    intros H k1 r E. rewrite get_put in E. destruct (eqb k1 k) eqn:E1; [discriminate|]. destruct (H _ _ E) as [H1 H2].
    split; [exact H1|]. intros k' E'. rewrite get_put in E'. destruct (eqb k' k); [discriminate|]. exact (H2 _ E').
  Qed.
  Lemma own_del n k m : own n m -> own n (del k m).
  Proof.
    intros H k1 r E. rewrite get_del in E. destruct (eqb k1 k) eqn:E1; [discriminate|]. destruct (H _ _ E) as [H1 H2].
    split; [exact H1|]. intros k' E'. rewrite get_del in E'. destruct (eqb k' k); [discriminate|]. exact (H2 _ E').
  Qed.
  Lemma own_new n k m : own n m -> own (n + 1) (put k (PTree n) m).
  Proof.
    intros H k1 r E. rewrite get_put in E. destruct (eqb k1 k) eqn:E1.
    - injection E as <-. apply eqb_eq in E1 as ->. split; [lia|]. intros k' E'. rewrite get_put in E'.
      destruct (eqb k' k) eqn:E2; [apply eqb_eq in E2; exact E2|]. destruct (H _ _ E') as [H1 _]. lia.
    - destruct (H _ _ E) as [H1 H2]. split; [lia|]. intros k' E'. rewrite get_put in E'.
      destruct (eqb k' k) eqn:E2; [|exact (H2 _ E')]. injection E' as <-. lia.
  Qed.

  Lemma inv_new : inv db_new.
  Proof.
    assert (Hp : parts_ok parts_new) by (constructor; try apply sok_new; apply nok_new).
    constructor; cbn [db_new d_wids d_words d_lexCount d_parts d_old d_trees d_total d_fresh]; try apply sok_new; try apply nok_new; try exact Hp.
    - discriminate.
    - apply own_empty.
    - apply own_empty.
  Qed.

  (** ** The views *)
  Notation view T m := (mmap (fun _ => resolve T) m).
  Lemma view_put T k o (m : smap Z (pobj V)) : view T (put k o m) = put k (resolve T o) (view T m).
  Proof. apply smap_ext. intros x. rewrite get_mmap, !get_put, get_mmap. destruct (eqb x k); reflexivity. Qed.
  Lemma view_del T k (m : smap Z (pobj V)) : view T (del k m) = del k (view T m).
  Proof. apply smap_ext. intros x. rewrite get_mmap, !get_del, get_mmap. destruct (eqb x k); reflexivity. Qed.
  (** an IF BTree changed in place *)
  Lemma view_tree n T k r t (m : smap Z (pobj V)) : own n m -> get m k = Some (PTree r) ->
    view (put r t T) m = put k (mkPosting false t) (view T m).
  Proof.
    intros H E. destruct (H _ _ E) as [_ H2]. apply smap_ext. intros x. rewrite get_mmap, get_put, get_mmap.
    destruct (eqb x k) eqn:Ex.
    - apply eqb_eq in Ex as ->. rewrite E. cbn. unfold tree_of. rewrite get_put_same. reflexivity.
    - destruct (get m x) as [[d|r']|] eqn:E'; cbn; try reflexivity. unfold tree_of. rewrite get_put_other; [reflexivity|].
      intros ->. rewrite (H2 _ E') in Ex. rewrite eqb_refl in Ex. discriminate.
  Qed.
  (** a new IF BTree *)
  Lemma view_fresh n T t (m : smap Z (pobj V)) : own n m -> view (put n t T) m = view T m.
  Proof.
    intros H. apply smap_ext. intros x. rewrite !get_mmap. destruct (get m x) as [[d|r']|] eqn:E'; cbn; try reflexivity.
    unfold tree_of. rewrite get_put_other; [reflexivity|]. intros ->. destruct (H _ _ E') as [H1 _]. lia.
  Qed.

  (** ** Steps that do the same to the index in memory and nothing to the saved one *)
  Definition psim {A} (m : sx dbst A) (n : sx sys A) : Prop :=
    forall st, inv st -> let (st', r) := m st in n (db_live st) = (db_live st', r) /\ inv st' /\ db_saved st' = db_saved st.
  Lemma psim_ret {A} (a : A) : psim (sret a) (sret a).
  Proof. intros st H. cbn. auto. Qed.
  Lemma psim_bind {A B} (m : sx dbst A) n (f : A -> sx dbst B) g : psim m n -> (forall a, psim (f a) (g a)) -> psim (sbind m f) (sbind n g).
  Proof.
    intros H1 H2 st Hi. unfold sbind. specialize (H1 st Hi). destruct (m st) as [st1 [a|e]]; destruct H1 as (E & Hi1 & Hs); rewrite E.
    - specialize (H2 a st1 Hi1). destruct (f a st1) as [st2 r]. destruct H2 as (E2 & Hi2 & Hs2). rewrite E2, Hs2. auto.
    - auto.
  Qed.
  Lemma psim_iter {A} (f : A -> sx dbst unit) g l : (forall x, psim (f x) (g x)) -> psim (siter f l) (siter g l).
  Proof. intros H. induction l as [|x l IH]; cbn [siter]; [apply psim_ret|]. apply psim_bind; [apply H|intros _; exact IH]. Qed.
  Lemma psim_lift {A} (f : dbst -> res A) g : (forall st, inv st -> g (db_live st) = f st) -> psim (slift f) (slift g).
  Proof. intros H st Hi. unfold slift. rewrite (H st Hi). auto. Qed.
  Lemma psim_const {A} (r : res A) : psim (slift (fun _ => r)) (slift (fun _ => r)).
  Proof. apply psim_lift. reflexivity. Qed.
  Definition same_as (f : dbst -> dbst) (g : bindex V -> bindex V) : Prop :=
    forall st, inv st -> db_live (f st) = mkSys (slx (db_live st)) (g (six (db_live st))) /\ inv (f st) /\ db_saved (f st) = db_saved st.
  Lemma psim_on f g : same_as f g -> psim (on_db f) (on_ix g).
  Proof. intros H st Hi. destruct (H st Hi) as (E & Hi' & Hs). cbn. rewrite E. auto. Qed.

  (** replacing a part *)
  Lemma keep_parts c st : inv st -> parts_ok c -> saved (c_wordinfo c) = saved (c_wordinfo (d_parts st)) ->
    saved (c_docweight c) = saved (c_docweight (d_parts st)) -> saved (c_docwords c) = saved (c_docwords (d_parts st)) ->
    n_saved (c_wordCount c) = n_saved (c_wordCount (d_parts st)) -> n_saved (c_documentCount c) = n_saved (c_documentCount (d_parts st)) ->
    own (d_fresh st) (live (c_wordinfo c)) -> inv (set_parts c st) /\ db_saved (set_parts c st) = db_saved st.
  Proof.
    intros [] Hc H1 H2 H3 H4 H5 H6. split.
    - constructor; cbn; auto. unfold db_base in *. cbn. destruct (d_old st); [assumption|]. rewrite H1. assumption.
    - unfold db_saved, db_base. cbn. destruct (d_old st); [reflexivity|]. rewrite H1, H2, H3, H4, H5. reflexivity.
  Qed.
  Lemma keep_wordinfo m st : inv st -> sok m -> saved m = saved (c_wordinfo (d_parts st)) -> own (d_fresh st) (live m) ->
    inv (db_wordinfo m st) /\ db_saved (db_wordinfo m st) = db_saved st.
  Proof. intros Hi H1 H2 H3. destruct (i_parts _ Hi). apply keep_parts; cbn; auto. constructor; cbn; auto. Qed.

  Lemma same_wordCount n : same_as (db_wordCount n) (change_wordCount n).
  Proof.
    intros st Hi. split; [reflexivity|]. destruct (i_parts _ Hi). apply keep_parts; cbn; auto using i_live.
    constructor; cbn; auto using nok_change.
  Qed.
  Lemma same_documentCount n : same_as (db_documentCount n) (change_documentCount n).
  Proof.
    intros st Hi. split; [reflexivity|]. destruct (i_parts _ Hi). apply keep_parts; cbn; auto using i_live.
    constructor; cbn; auto using nok_change.
  Qed.
  Lemma same_put_docweight d w : same_as (db_put_docweight rnd d w) (fun ix => set_docweight (put d (rnd w) (docweight ix)) ix).
  Proof.
    intros st Hi. split; [reflexivity|]. destruct (i_parts _ Hi). apply keep_parts; cbn; auto using i_live.
    constructor; cbn; auto using @sok_put.
  Qed.
  Lemma same_put_docwords d w : same_as (db_put_docwords d w) (fun ix => set_docwords (put d w (docwords ix)) ix).
  Proof.
    intros st Hi. split; [reflexivity|]. destruct (i_parts _ Hi). apply keep_parts; cbn; auto using i_live.
    constructor; cbn; auto using @sok_put.
  Qed.
  Lemma same_del_docweight d : same_as (fun st => db_docweight (s_del d (c_docweight (d_parts st))) st) (fun ix => set_docweight (del d (docweight ix)) ix).
  Proof.
    intros st Hi. split; [reflexivity|]. destruct (i_parts _ Hi). apply keep_parts; cbn; auto using i_live.
    constructor; cbn; auto using @sok_del.
  Qed.
  Lemma same_del_docwords d : same_as (fun st => db_docwords (s_del d (c_docwords (d_parts st))) st) (fun ix => set_docwords (del d (docwords ix)) ix).
  Proof.
    intros st Hi. split; [reflexivity|]. destruct (i_parts _ Hi). apply keep_parts; cbn; auto using i_live.
    constructor; cbn; auto using @sok_del.
  Qed.
  Lemma same_total n : same_as (db_total n) (change_totaldoclen n).
  Proof. intros st Hi. split; [reflexivity|]. split; [|reflexivity]. destruct Hi. constructor; cbn; auto using nok_change. Qed.
  Lemma same_clear : same_as db_clear ix_clear.
  Proof.
    intros st Hi. split.
    { unfold db_live, db_clear, ix_clear. cbn. f_equal. f_equal. apply elts_inj. reflexivity. }
    destruct Hi as [I1 I2 I3 I4 I5 I6 I7 I8 I9]. split.
    - constructor; cbn [db_clear d_wids d_words d_lexCount d_parts d_old d_trees d_total d_fresh]; auto.
      + constructor; try apply sok_new; apply nok_new.
      + intros c. destruct (d_old st) eqn:E; intros E'; injection E' as <-; auto.
      + apply own_empty.
      + unfold db_base in *. cbn [db_clear d_old]. destruct (d_old st); assumption.
    - unfold db_saved, db_base. cbn [db_clear d_old d_wids d_words d_lexCount d_total d_trees]. destruct (d_old st); reflexivity.
  Qed.

  (** trees *)
  Lemma keep_trees t st : inv st -> sok t -> saved t = saved (d_trees st) -> inv (set_trees t st) /\ db_saved (set_trees t st) = db_saved st.
  Proof.
    intros [] H1 H2. split; [constructor; cbn; auto|]. unfold db_saved, db_base. cbn. rewrite H2. reflexivity.
  Qed.

  Lemma live_wi (st : dbst) k : get (wordinfo (six (db_live st))) k =
    option_map (resolve (live (d_trees st))) (get (live (c_wordinfo (d_parts st))) k).
  Proof. unfold db_live. cbn [six wordinfo]. rewrite get_mmap. destruct (get (live (c_wordinfo (d_parts st))) k); reflexivity. Qed.

  Definition put_wi k p (s : sys) : sys := mkSys (slx s) (set_wordinfo (put k p (wordinfo (six s))) (six s)).
  Lemma new_dict_same wid f d st : inv st ->
    db_live (db_new_dict wid f d st) = put_wi wid (p_set rnd d f (mkPosting true empty)) (db_live st) /\
    inv (db_new_dict wid f d st) /\ db_saved (db_new_dict wid f d st) = db_saved st.
  Proof.
    intros Hi. split.
    - unfold db_live, db_new_dict, put_wi. cbn. rewrite view_put. reflexivity.
    - destruct (i_parts _ Hi). apply keep_wordinfo; cbn [s_put live saved]; auto using @sok_put. apply own_dict. exact (i_live _ Hi).
  Qed.
  Lemma set_score_same wid f d o st : inv st -> get (live (c_wordinfo (d_parts st))) wid = Some o ->
    db_live (db_set_score rnd wid f d o st) = put_wi wid (p_set rnd d f (convert rnd (resolve (live (d_trees st)) o))) (db_live st) /\
    inv (db_set_score rnd wid f d o st) /\ db_saved (db_set_score rnd wid f d o st) = db_saved st.
  Proof.
    intros Hi E. pose proof (i_live _ Hi) as Ho. destruct o as [m|r]; cbn [db_set_score resolve].
    - unfold convert. cbn [p_dict p_map andb]. destruct (Zsize m =? DICT_CUTOFF) eqn:Ec.
      + cbv zeta. set (t := put d (rnd f) (mmap (fun _ => rnd) m)).
        set (st1 := mkDb (d_wids st) (d_words st) (d_lexCount st) (d_parts st) (d_old st) (s_put (d_fresh st) t (d_trees st)) (d_fresh st + 1) (d_total st)).
        assert (Hi1 : inv st1).
        { destruct Hi. constructor; cbn; auto using @sok_put; (eapply own_mono; [|eassumption]); lia. }
        split; [|].
        * unfold db_live, put_wi. cbn. rewrite view_put, (view_fresh _ _ _ _ Ho). cbn. unfold tree_of. rewrite get_put_same. reflexivity.
        * destruct (i_parts _ Hi1). destruct (keep_wordinfo (s_put wid (PTree (d_fresh st)) (c_wordinfo (d_parts st1))) st1) as [H1 H2]; auto using @sok_put.
          cbn [s_put live st1 d_fresh d_parts]. apply own_new. exact Ho.
      + cbv zeta. cbn [db_wordinfo set_parts d_parts c_wordinfo]. rewrite put_inplace. split.
        * unfold db_live, put_wi. cbn. rewrite view_put. reflexivity.
        * destruct (i_parts _ Hi). change (inv (db_wordinfo (s_put wid (PDict (put d f m)) (c_wordinfo (d_parts st))) st) /\
            db_saved (db_wordinfo (s_put wid (PDict (put d f m)) (c_wordinfo (d_parts st))) st) = db_saved st).
          apply keep_wordinfo; cbn [s_put live saved]; auto using @sok_put. apply own_dict. exact Ho.
    - cbv zeta. set (t := put d (rnd f) (tree_of (live (d_trees st)) r)).
      set (st1 := set_trees (s_put r t (d_trees st)) st).
      destruct (keep_trees (s_put r t (d_trees st)) st Hi) as [Hi1 Hs1]; [apply sok_put; exact (i_trees _ Hi)|reflexivity|]. fold st1 in Hi1, Hs1.
      assert (Eput : put wid (PTree r) (live (c_wordinfo (d_parts st))) = live (c_wordinfo (d_parts st))) by (apply put_same_id; exact E).
      split.
      + unfold db_live, put_wi. cbn. rewrite Eput, (view_tree _ _ _ _ t _ Ho E). unfold convert. cbn [p_dict andb]. reflexivity.
      + rewrite <- Hs1. destruct (i_parts _ Hi1). apply keep_wordinfo; cbn [s_put live saved]; auto using @sok_put.
        cbn [st1 set_trees d_parts d_fresh]. rewrite Eput. exact Ho.
  Qed.
  Lemma same_add wid f d : same_as (db_add_wordinfo rnd wid f d) (add_wordinfo rnd wid f d).
  Proof.
    intros st Hi. unfold db_add_wordinfo, add_wordinfo. rewrite live_wi. destruct (get (live (c_wordinfo (d_parts st))) wid) as [o|] eqn:E; cbn [option_map].
    - exact (set_score_same wid f d o st Hi E).
    - destruct (same_wordCount 1 st Hi) as (E1 & Hi1 & Hs1). destruct (new_dict_same wid f d _ Hi1) as (E2 & Hi2 & Hs2).
      rewrite E2, E1, Hs2, Hs1. auto.
  Qed.
  Lemma mass_same d (l : list (Z * V)) : forall st n, inv st ->
    let '(st', n') := fold_left (db_mass_step rnd d) l (st, n) in
    (let '(wi, n1) := fold_left (mass_step rnd d) l (wordinfo (six (db_live st)), n) in
     db_live st' = mkSys (slx (db_live st)) (set_wordinfo wi (six (db_live st))) /\ n' = n1) /\ inv st' /\ db_saved st' = db_saved st.
  Proof.
    induction l as [|[k v] l IH]; intros st n Hi; cbn [fold_left].
    - split; [split; [|reflexivity]|auto]. destruct (db_live st) as [lx []]. reflexivity.
    - unfold db_mass_step at 2, mass_step at 2. cbn [fst snd]. rewrite live_wi.
      assert (Hstep : forall st1 p n1, db_live st1 = put_wi k p (db_live st) /\ inv st1 /\ db_saved st1 = db_saved st ->
        let '(st', n') := fold_left (db_mass_step rnd d) l (st1, n1) in
        (let '(wi, n2) := fold_left (mass_step rnd d) l (put k p (wordinfo (six (db_live st))), n1) in
         db_live st' = mkSys (slx (db_live st)) (set_wordinfo wi (six (db_live st))) /\ n' = n2) /\ inv st' /\ db_saved st' = db_saved st).
      { intros st1 p n1 (E1 & Hi1 & Hs1). specialize (IH st1 n1 Hi1). destruct (fold_left (db_mass_step rnd d) l (st1, n1)) as [st' n'].
        rewrite E1 in IH. cbn [put_wi six set_wordinfo wordinfo slx] in IH.
        destruct (fold_left (mass_step rnd d) l (put k p (wordinfo (six (db_live st))), n1)) as [wi n2]. rewrite <- Hs1. exact IH. }
      destruct (get (live (c_wordinfo (d_parts st))) k) as [o|] eqn:E; cbn [option_map].
      + apply Hstep. exact (set_score_same k v d o st Hi E).
      + apply Hstep. exact (new_dict_same k v d st Hi).
  Qed.
  Lemma same_mass m d : same_as (db_mass_add_wordinfo rnd m d) (mass_add_wordinfo rnd m d).
  Proof.
    intros st Hi. unfold db_mass_add_wordinfo, mass_add_wordinfo. pose proof (mass_same d (elts m) st 0 Hi) as H.
    destruct (fold_left (db_mass_step rnd d) (elts m) (st, 0)) as [st1 n1].
    destruct (fold_left (mass_step rnd d) (elts m) (wordinfo (six (db_live st)), 0)) as [wi n2]. destruct H as ([E1 ->] & Hi1 & Hs1).
    destruct (same_wordCount n2 st1 Hi1) as (E2 & Hi2 & Hs2). rewrite E2, E1, Hs2, Hs1. auto.
  Qed.

  Lemma sim_del wid d : psim (db_del_wordinfo wid d) (del_wordinfo wid d).
  Proof.
    intros st Hi. pose proof (i_live _ Hi) as Ho. unfold db_del_wordinfo, del_wordinfo, sbind, slift. unfold item. rewrite live_wi.
    destruct (get (live (c_wordinfo (d_parts st))) wid) as [o|] eqn:E; cbn [option_map]; [|auto].
    destruct (get (p_map (resolve (live (d_trees st)) o)) d) as [v|] eqn:Ed; [|auto]. cbn [on_db smod].
    set (p' := mkPosting (p_dict (resolve (live (d_trees st)) o)) (del d (p_map (resolve (live (d_trees st)) o)))).
    set (st1 := db_del_score wid d o st).
    (* the value in place, and what [_wordinfo[wid] = doc2score] and [del _wordinfo[wid]] then do *)
    assert (H1 : exists o1, get (live (c_wordinfo (d_parts st1))) wid = Some o1 /\ resolve (live (d_trees st1)) o1 = p' /\
      (let st2 := db_wordinfo (s_put wid o1 (c_wordinfo (d_parts st1))) st1 in
       db_live st2 = put_wi wid p' (db_live st) /\ inv st2 /\ db_saved st2 = db_saved st) /\
      (let st2 := db_wordinfo (s_del wid (c_wordinfo (d_parts st1))) st1 in
       db_live st2 = mkSys (slx (db_live st)) (set_wordinfo (del wid (wordinfo (six (db_live st)))) (six (db_live st))) /\ inv st2 /\ db_saved st2 = db_saved st)).
    { destruct o as [m|r]; cbn [db_del_score] in st1; cbn [resolve p_map p_dict] in p'.
      - exists (PDict (del d m)). split; [cbn; apply get_put_same|]. split; [reflexivity|].
        unfold st1. cbn [db_wordinfo set_parts d_parts c_wordinfo]. rewrite put_inplace, del_inplace. destruct (i_parts _ Hi). split.
        + split.
          * unfold db_live, put_wi. cbn. rewrite view_put. reflexivity.
          * change (inv (db_wordinfo (s_put wid (PDict (del d m)) (c_wordinfo (d_parts st))) st) /\
              db_saved (db_wordinfo (s_put wid (PDict (del d m)) (c_wordinfo (d_parts st))) st) = db_saved st).
            apply keep_wordinfo; cbn [s_put live saved]; auto using @sok_put. apply own_dict. exact Ho.
        + split.
          * unfold db_live. cbn. rewrite view_del. reflexivity.
          * change (inv (db_wordinfo (s_del wid (c_wordinfo (d_parts st))) st) /\
              db_saved (db_wordinfo (s_del wid (c_wordinfo (d_parts st))) st) = db_saved st).
            apply keep_wordinfo; cbn [s_del live saved]; auto using @sok_del. apply own_del. exact Ho.
      - set (t := del d (tree_of (live (d_trees st)) r)) in *.
        destruct (keep_trees (s_put r t (d_trees st)) st Hi) as [Hi1 Hs1]; [apply sok_put; exact (i_trees _ Hi)|reflexivity|]. fold st1 in Hi1, Hs1.
        assert (Eput : put wid (PTree r) (live (c_wordinfo (d_parts st))) = live (c_wordinfo (d_parts st))) by (apply put_same_id; exact E).
        exists (PTree r). split; [exact E|]. split.
        { cbn. unfold tree_of. rewrite get_put_same. reflexivity. }
        destruct (i_parts _ Hi1). split.
        + split.
          * unfold db_live, put_wi. cbn. rewrite Eput, (view_tree _ _ _ _ t _ Ho E). reflexivity.
          * rewrite <- Hs1. apply keep_wordinfo; cbn [s_put live saved]; auto using @sok_put.
            cbn [st1 set_trees d_parts d_fresh]. rewrite Eput. exact Ho.
        + split.
          * unfold db_live. cbn. rewrite view_del, (view_tree _ _ _ _ t _ Ho E), del_put. reflexivity.
          * rewrite <- Hs1. apply keep_wordinfo; cbn [s_del live saved]; auto using @sok_del.
            cbn [st1 set_trees d_parts d_fresh]. apply own_del. exact Ho. }
    destruct H1 as (o1 & Eo & Er & (P1 & P2 & P3) & (D1 & D2 & D3)). unfold db_keep_or_drop. rewrite Eo, Er.
    destruct (is_empty (p_map p')) eqn:Ee; cbn [negb].
    - destruct (same_wordCount (-1) _ D2) as (E2 & Hi2 & Hs2). rewrite E2, D1, Hs2, D3. auto.
    - rewrite P1. auto.
  Qed.

  (** the lexicon *)
  Lemma sim_create w : psim (db_getWordIdCreate w) (fun s => let (lx, r) := getWordIdCreate w (slx s) in (mkSys lx (six s), r)).
  Proof.
    intros st Hi. unfold db_getWordIdCreate, getWordIdCreate. cbn [db_live slx]. change (lwids (db_lex st)) with (live (d_wids st)).
    destruct (get (live (d_wids st)) w) as [i|] eqn:E; [auto|]. destruct (new_wid (db_lex st)) as [j|e]; [|auto].
    split; [reflexivity|]. destruct Hi. split; [|reflexivity]. constructor; cbn; auto using @sok_put, nok_set.
  Qed.
  Lemma sim_create_all ws : psim (db_create_all ws) (fun s => let (lx, r) := create_all ws (slx s) in (mkSys lx (six s), r)).
  Proof.
    induction ws as [|w ws IH]; cbn [db_create_all create_all].
    - intros st Hi. cbn. auto.
    - intros st Hi. unfold sbind. pose proof (sim_create w st Hi) as H. destruct (db_getWordIdCreate w st) as [st1 r1].
      destruct (getWordIdCreate w (slx (db_live st))) as [lx1 r1']. destruct H as (E1 & Hi1 & Hs1). apply pair_inv in E1 as [E1 ->].
      destruct r1 as [wid|e].
      + specialize (IH st1 Hi1). destruct (db_create_all ws st1) as [st2 r2]. rewrite <- E1 in IH. cbn [slx six] in IH.
        destruct (create_all ws lx1) as [lx2 r2']. destruct IH as (E2 & Hi2 & Hs2). apply pair_inv in E2 as [E2 ->].
        rewrite <- Hs1. destruct r2; cbn [sret]; rewrite <- E2; auto.
      + rewrite E1. auto.
  Qed.
  Lemma sim_source t : psim (db_source pipeline t) (source pipeline t).
  Proof. exact (sim_create_all (run_pipeline pipeline (text2list t))). Qed.
  Lemma sim_other o : psim (db_other pipeline o) (smod (fun s => mkSys (lex_step pipeline (slx s) o) (six s))).
  Proof.
    intros st Hi. destruct o as [t|n]; cbn [db_other lex_step].
    - pose proof (sim_source t st Hi) as H. unfold source in H. unfold smod. destruct (db_source pipeline t st) as [st1 r].
      cbn [fst]. destruct (sourceToWordIds pipeline t (slx (db_live st))) as [lx r']. destruct H as (E & Hi1 & Hs1). apply pair_inv in E as [E _].
      cbn [fst]. rewrite E. auto.
    - cbn. split; [reflexivity|]. destruct Hi. split; [|reflexivity]. constructor; cbn; auto using nok_set.
  Qed.

  Lemma sim_get_words d : psim (slift (db_get_words d)) (slift (fun s => get_words (six s) d)).
  Proof. apply psim_lift. reflexivity. Qed.
  Lemma sim_docweight d : psim (slift (fun st : dbst => item (live (c_docweight (d_parts st))) d)) (slift (fun s => item (docweight (six s)) d)).
  Proof. apply psim_lift. reflexivity. Qed.

  Lemma sim_reindex d t : psim (db_reindex rnd veqb freqs pipeline d t) (base_reindex_with rnd veqb freqs d (source pipeline t)).
  Proof.
    unfold db_reindex, base_reindex_with. apply psim_bind; [apply sim_get_words|]. intros ow.
    apply psim_bind; [apply psim_const|]. intros [ow2w ?]. apply psim_bind; [apply sim_source|]. intros nw.
    apply psim_bind; [apply psim_const|]. intros [nw2w ndw].
    apply psim_bind; [apply psim_iter; intros k; apply sim_del|]. intros _.
    apply psim_bind; [apply psim_iter; intros k; apply psim_bind; [apply psim_const|]; intros w; apply psim_on, same_add|]. intros _.
    apply psim_bind.
    { apply psim_iter; intros k. apply psim_bind; [apply psim_const|]. intros x. apply psim_bind; [apply psim_const|]. intros y.
      destruct (negb (veqb y x)); [apply psim_on, same_add|apply psim_ret]. }
    intros _. apply psim_bind; [apply psim_on, same_put_docweight|]. intros _. apply psim_bind; [apply psim_const|]. intros code.
    apply psim_bind; [apply psim_on, same_put_docwords|]. intros _. apply psim_ret.
  Qed.
  Lemma sim_index dre re d t : psim (dre d t) (re d (source pipeline t)) ->
    psim (db_index_doc rnd freqs pipeline dre d t) (base_index_doc_with rnd freqs re d (source pipeline t)).
  Proof.
    intros Hre st Hi. unfold db_index_doc, base_index_doc_with. change (has_doc (six (db_live st)) d) with (db_has_doc st d).
    destruct (db_has_doc st d); [exact (Hre st Hi)|]. revert st Hi.
    change (psim
      (sdo wids <- db_source pipeline t;
       sdo (wid2weight, docw) <- slift (fun _ => freqs wids);
       sdo _ <- on_db (db_mass_add_wordinfo rnd wid2weight d);
       sdo _ <- on_db (db_put_docweight rnd d docw);
       sdo code <- slift (fun _ => encode wids);
       sdo _ <- on_db (db_put_docwords d code);
       sdo _ <- on_db (db_documentCount 1);
       sret (Zlen wids))
      (sdo wids <- source pipeline t;
       sdo (wid2weight, docw) <- slift (fun _ => freqs wids);
       sdo _ <- on_ix (mass_add_wordinfo rnd wid2weight d);
       sdo _ <- on_ix (fun ix => set_docweight (put d (rnd docw) (docweight ix)) ix);
       sdo code <- slift (fun _ => encode wids);
       sdo _ <- on_ix (fun ix => set_docwords (put d code (docwords ix)) ix);
       sdo _ <- on_ix (change_documentCount 1);
       sret (Zlen wids))).
    apply psim_bind; [apply sim_source|]. intros wids. apply psim_bind; [apply psim_const|]. intros [m dw].
    apply psim_bind; [apply psim_on, same_mass|]. intros _. apply psim_bind; [apply psim_on, same_put_docweight|]. intros _.
    apply psim_bind; [apply psim_const|]. intros code. apply psim_bind; [apply psim_on, same_put_docwords|]. intros _.
    apply psim_bind; [apply psim_on, same_documentCount|]. intros _. apply psim_ret.
  Qed.
  Lemma sim_unindex d : psim (db_unindex_doc d) (base_unindex_doc d).
  Proof.
    intros st Hi. unfold db_unindex_doc, base_unindex_doc. change (has_doc (six (db_live st)) d) with (db_has_doc st d).
    destruct (db_has_doc st d); cbn [negb]; [|auto]. revert st Hi.
    change (psim
      (sdo wids <- slift (db_get_words d);
       sdo _ <- siter (fun wid => db_del_wordinfo wid d) (selems (set_of_list wids));
       sdo _ <- slift (fun st : dbst => item (live (c_docwords (d_parts st))) d);
       sdo _ <- on_db (fun st => db_docwords (s_del d (c_docwords (d_parts st))) st);
       sdo _ <- slift (fun st => item (live (c_docweight (d_parts st))) d);
       sdo _ <- on_db (fun st => db_docweight (s_del d (c_docweight (d_parts st))) st);
       on_db (db_documentCount (-1)))
      (sdo wids <- slift (fun s => get_words (six s) d);
       sdo _ <- siter (fun wid => del_wordinfo wid d) (selems (set_of_list wids));
       sdo _ <- delitem docwords set_docwords d;
       sdo _ <- delitem docweight set_docweight d;
       on_ix (change_documentCount (-1)))).
    apply psim_bind; [apply sim_get_words|]. intros wids. apply psim_bind; [apply psim_iter; intros k; apply sim_del|]. intros _.
    assert (Hassoc : forall A B C (m : sx sys A) (f : A -> sx sys B) (g : B -> sx sys C) (P : sx sys C -> Prop),
      (forall s, sbind (sbind m f) g s = sbind m (fun a => sbind (f a) g) s)).
    { intros A B C m f g P s. unfold sbind. destruct (m s) as [s1 [a|e]]; reflexivity. }
    intros st Hi. unfold delitem. rewrite (Hassoc _ _ _ _ _ _ (fun _ => True)). revert st Hi.
    change (psim
      (sdo _ <- slift (fun st : dbst => item (live (c_docwords (d_parts st))) d);
       sdo _ <- on_db (fun st => db_docwords (s_del d (c_docwords (d_parts st))) st);
       sdo _ <- slift (fun st => item (live (c_docweight (d_parts st))) d);
       sdo _ <- on_db (fun st => db_docweight (s_del d (c_docweight (d_parts st))) st);
       on_db (db_documentCount (-1)))
      (sdo _ <- slift (fun s => item (docwords (six s)) d);
       sdo _ <- on_ix (fun ix => set_docwords (del d (docwords ix)) ix);
       sdo _ <- delitem docweight set_docweight d;
       on_ix (change_documentCount (-1)))).
    apply psim_bind; [apply psim_lift; reflexivity|]. intros _. apply psim_bind; [apply psim_on, same_del_docwords|]. intros _.
    intros st Hi. unfold delitem. rewrite (Hassoc _ _ _ _ _ _ (fun _ => True)). revert st Hi.
    change (psim
      (sdo _ <- slift (fun st : dbst => item (live (c_docweight (d_parts st))) d);
       sdo _ <- on_db (fun st => db_docweight (s_del d (c_docweight (d_parts st))) st);
       on_db (db_documentCount (-1)))
      (sdo _ <- slift (fun s => item (docweight (six s)) d);
       sdo _ <- on_ix (fun ix => set_docweight (del d (docweight ix)) ix);
       on_ix (change_documentCount (-1)))).
    apply psim_bind; [apply psim_lift; reflexivity|]. intros _. apply psim_bind; [apply psim_on, same_del_docweight|]. intros _.
    apply psim_on, same_documentCount.
  Qed.

  (** ** Transactions *)
  Lemma base_ok st : inv st -> parts_ok (db_base st).
  Proof. intros Hi. unfold db_base. destruct (d_old st) eqn:E; [exact (i_old _ Hi _ E)|exact (i_parts _ Hi)]. Qed.
  Lemma all_ok (c : parts V) : parts_ok (parts_all c).
  Proof. constructor; try apply sok_same; apply nok_same. Qed.
  Lemma restart_ok (c : parts V) : parts_ok (parts_restart c).
  Proof. constructor; try apply sok_same; apply nok_same. Qed.
  Lemma parts_commit_eq ks c : parts_ok c -> parts_commit ks c = parts_all c.
  Proof. intros []. unfold parts_commit, parts_all, s_all, n_all. rewrite !commit_eq, !n_commit_eq by assumption. reflexivity. Qed.
  Lemma parts_abort_eq ks c : parts_ok c -> parts_abort ks c = parts_restart c.
  Proof. intros []. unfold parts_abort, parts_restart, s_restart, n_restart. rewrite !abort_eq, !n_abort_eq by assumption. reflexivity. Qed.
  Lemma parts_evict_eq ks c : parts_ok c -> parts_evict ks c = c.
  Proof. intros []. unfold parts_evict. rewrite !evict_eq, !n_evict_eq by assumption. destruct c; reflexivity. Qed.

  Lemma commit_ok ks st : inv st ->
    db_live (db_commit ks st) = db_live st /\ db_saved (db_commit ks st) = db_live st /\ inv (db_commit ks st).
  Proof.
    intros Hi. assert (E : db_commit ks st = mkDb (s_all (d_wids st)) (s_all (d_words st)) (n_all (d_lexCount st)) (parts_all (d_parts st)) None
        (s_all (d_trees st)) (d_fresh st) (n_all (d_total st))).
    { unfold db_commit. destruct Hi. rewrite parts_commit_eq, !commit_eq, !n_commit_eq by assumption. destruct (d_old st); reflexivity. }
    rewrite E. split; [reflexivity|]. split; [reflexivity|].
    constructor; cbn [d_wids d_words d_lexCount d_parts d_old d_trees d_total d_fresh db_base]; try apply sok_same; try apply nok_same.
    - apply all_ok.
    - discriminate.
    - exact (i_live _ Hi).
    - exact (i_live _ Hi).
  Qed.
  Lemma restart_same st : inv st ->
    db_live (db_restart st) = db_saved st /\ db_saved (db_restart st) = db_saved st /\ inv (db_restart st).
  Proof.
    intros Hi. split; [reflexivity|]. split; [reflexivity|].
    constructor; cbn [db_restart d_wids d_words d_lexCount d_parts d_old d_trees d_total d_fresh]; try apply sok_same; try apply nok_same.
    - apply restart_ok.
    - discriminate.
    - exact (i_saved _ Hi).
    - exact (i_saved _ Hi).
  Qed.
  Lemma abort_restart ks st : inv st -> db_abort ks st = db_restart st.
  Proof.
    intros Hi. unfold db_abort, db_restart. rewrite parts_abort_eq by (apply base_ok; exact Hi). destruct Hi.
    unfold s_restart, n_restart. rewrite !abort_eq, !n_abort_eq by assumption. reflexivity.
  Qed.
  Lemma evict_same ks st : inv st -> db_evict ks st = st.
  Proof.
    intros [I1 I2 I3 I4 I5 I6 I7 I8 I9]. unfold db_evict. rewrite parts_evict_eq, !evict_eq, !n_evict_eq by assumption.
    destruct st as [a b c p o t f n]. cbn [d_wids d_words d_lexCount d_parts d_old d_trees d_total d_fresh] in *.
    destruct o as [o|]; cbn [option_map]; [rewrite parts_evict_eq by (apply I5; reflexivity)|]; reflexivity.
  Qed.
End Sim.

Section Run.
  Context {V : Type}.
  Variable pipeline : list elem.
  Variable index_doc : Z -> ltext -> sx (sys V) Z.
  Variable unindex_doc : Z -> sx (sys V) unit.
  Variable dindex : Z -> ltext -> sx (dbst V) Z.
  Variable dunindex : Z -> sx (dbst V) unit.
  Hypothesis Hindex : forall d t, psim (dindex d t) (index_doc d t).
  Hypothesis Hunindex : forall d, psim (dunindex d) (unindex_doc d).
  Local Notation call := (op_step pipeline index_doc unindex_doc).
  Local Notation run := (db_run pipeline dindex dunindex).

  Lemma call_sim o : psim (db_call pipeline dindex dunindex o) (call o).
  Proof.
    destruct o as [d t|d| |o]; cbn [db_call op_step].
    - apply psim_bind; [apply Hindex|]. intros _. apply psim_ret.
    - apply Hunindex.
    - apply psim_on, same_clear.
    - apply sim_other.
  Qed.
  Lemma after_app h o : after call (h ++ [o]) = fst (call o (after call h)).
  Proof. unfold after. rewrite fold_left_app. reflexivity. Qed.
  Lemma run_app evs e : run (evs ++ [e]) = db_event pipeline dindex dunindex (run evs) e.
  Proof. unfold db_run. rewrite fold_left_app. reflexivity. Qed.

  Lemma run_ok evs : inv (fst (run evs)) /\ db_live (fst (run evs)) = after call (in_force evs) /\ db_saved (fst (run evs)) = after call (committed evs).
  Proof.
    induction evs as [|e evs IH] using rev_ind.
    - split; [apply inv_new|]. split; unfold db_live, db_saved, after; cbn; unfold ix_new; f_equal; f_equal; apply elts_inj; reflexivity.
    - rewrite run_app. destruct IH as (Hi & El & Es). unfold in_force, committed. rewrite !fold_left_app. cbn [fold_left].
      change (fst (fold_left in_force_event evs ([], []))) with (in_force evs) in *.
      destruct e as [o|ks|ks|ks|]; cbn [db_event in_force_event fst snd].
      + pose proof (call_sim o _ Hi) as H. destruct (db_call pipeline dindex dunindex o (fst (run evs))) as [st' r]. cbn [fst].
        destruct H as (E & Hi' & Hs). split; [exact Hi'|]. rewrite Hs. split; [|exact Es].
        change (fst (fold_left in_force_event evs ([], []))) with (in_force evs). rewrite after_app, <- El, E. reflexivity.
      + destruct (commit_ok ks _ Hi) as (H1 & H2 & H3). rewrite H1, H2. auto.
      + rewrite (abort_restart _ _ Hi). destruct (restart_same _ Hi) as (H1 & H2 & H3). rewrite H1, H2. auto.
      + rewrite (evict_same _ _ Hi). auto.
      + destruct (restart_same _ Hi) as (H1 & H2 & H3). rewrite H1, H2. auto.
  Qed.
  Lemma run_result evs o : snd (run (evs ++ [ZCall o])) = snd (run evs) ++ [snd (call o (after call (in_force evs)))].
  Proof.
    rewrite run_app. destruct (run_ok evs) as (Hi & El & _). cbn [db_event]. pose proof (call_sim o _ Hi) as H.
    destruct (db_call pipeline dindex dunindex o (fst (run evs))) as [st' r]. destruct H as (E & _). rewrite <- El, E. reflexivity.
  Qed.
  Lemma run_ops_after h s : run_ops pipeline index_doc unindex_doc h = (s, Ok tt) -> after call h = s.
  Proof.
    unfold run_ops, after. generalize (mkSys lex_new (@ix_new V)). induction h as [|o h IH]; intros s0 E; cbn [siter fold_left] in *.
    - injection E as <-. reflexivity.
    - unfold sbind in E. destruct (call o s0) as [s1 [[]|e]]; [|discriminate]. exact (IH _ E).
  Qed.
End Run.

Lemma okapi_sim_index pipeline d t : psim (db_okapi_index_doc pipeline d t) (okapi_index_doc pipeline d t).
Proof.
  assert (Hlen : forall n, psim (db_change_doc_len n) (change_doc_len n)) by (intros n; apply psim_on, same_total).
  unfold db_okapi_index_doc, okapi_index_doc, okapi_index_doc_with. apply psim_bind.
  - apply (sim_index f32Z Z.eqb okapi_freqs pipeline (db_okapi_reindex pipeline) okapi_reindex). unfold db_okapi_reindex, okapi_reindex. apply psim_bind; [exact (sim_docweight _)|]. intros w.
    apply psim_bind; [apply Hlen|]. intros _. apply sim_reindex.
  - intros n. apply psim_bind; [apply Hlen|]. intros _. apply psim_ret.
Qed.
Lemma okapi_sim_unindex d : psim (db_okapi_unindex_doc d) (okapi_unindex_doc d).
Proof.
  intros st Hi. unfold db_okapi_unindex_doc, okapi_unindex_doc. change (has_doc (six (db_live st)) d) with (db_has_doc st d).
  destruct (db_has_doc st d); cbn [negb]; [|auto]. revert st Hi.
  change (psim
    (sdo w <- slift (fun st => item (live (c_docweight (d_parts st))) d); sdo _ <- db_change_doc_len (- w); db_unindex_doc d)
    (sdo w <- slift (fun s => item (docweight (six s)) d); sdo _ <- change_doc_len (- w); base_unindex_doc d)).
  apply psim_bind; [exact (sim_docweight _)|]. intros w. apply psim_bind; [apply psim_on, same_total|]. intros _. apply sim_unindex.
Qed.
Lemma cos_sim_index {F} {AF : Arith F} pipeline d t : psim (db_cos_index_doc pipeline d t) (cos_index_doc pipeline d t).
Proof. apply (sim_index f32 feqb cos_freqs pipeline (db_reindex f32 feqb cos_freqs pipeline) (base_reindex_with f32 feqb cos_freqs)), sim_reindex. Qed.

Lemma okapi_stored pipeline evs :
  db_live (fst (db_okapi_run pipeline evs)) = after (okapi_call pipeline) (in_force evs) /\
  db_saved (fst (db_okapi_run pipeline evs)) = after (okapi_call pipeline) (committed evs).
Proof. exact (proj2 (run_ok _ _ _ _ _ (okapi_sim_index pipeline) okapi_sim_unindex evs)). Qed.
Lemma okapi_results pipeline evs o :
  snd (db_okapi_run pipeline (evs ++ [ZCall o])) =
  snd (db_okapi_run pipeline evs) ++ [snd (okapi_call pipeline o (after (okapi_call pipeline) (in_force evs)))].
Proof. exact (run_result _ _ _ _ _ (okapi_sim_index pipeline) okapi_sim_unindex evs o). Qed.
Lemma cos_stored {F} {AF : Arith F} pipeline evs :
  db_live (fst (db_cos_run pipeline evs)) = after (cos_call pipeline) (in_force evs) /\
  db_saved (fst (db_cos_run pipeline evs)) = after (cos_call pipeline) (committed evs).
Proof. exact (proj2 (run_ok _ _ _ _ _ (cos_sim_index pipeline) sim_unindex evs)). Qed.
Lemma cos_results {F} {AF : Arith F} pipeline evs o :
  snd (db_cos_run pipeline (evs ++ [ZCall o])) =
  snd (db_cos_run pipeline evs) ++ [snd (cos_call pipeline o (after (cos_call pipeline) (in_force evs)))].
Proof. exact (run_result _ _ _ _ _ (cos_sim_index pipeline) sim_unindex evs o). Qed.

Lemma okapi_history pipeline evs s :
  (okapi_run pipeline (in_force evs) = (s, Ok tt) -> db_live (fst (db_okapi_run pipeline evs)) = s) /\
  (okapi_run pipeline (committed evs) = (s, Ok tt) -> db_saved (fst (db_okapi_run pipeline evs)) = s).
Proof.
  destruct (okapi_stored pipeline evs) as [-> ->].
  split; exact (run_ops_after pipeline (okapi_index_doc pipeline) okapi_unindex_doc _ s).
Qed.
Lemma cos_history {F} {AF : Arith F} pipeline evs s :
  (cos_run pipeline (in_force evs) = (s, Ok tt) -> db_live (fst (db_cos_run pipeline evs)) = s) /\
  (cos_run pipeline (committed evs) = (s, Ok tt) -> db_saved (fst (db_cos_run pipeline evs)) = s).
Proof.
  destruct (cos_stored pipeline evs) as [-> ->].
  split; exact (run_ops_after pipeline (cos_index_doc pipeline) base_unindex_doc _ s).
Qed.
