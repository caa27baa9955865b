(** * Lemmas about the topic index *)
From Verif Require Import S_topic M_topic L_keyword SMap Ord.

Section L.
  Context {I : Type} `{OI : Ord I} {E C : Type}.
  Variable eval : E -> Z -> C -> evres.
  Notation top := (top I E C).
  Notation tstate := (smap I (filt I E)).
  Implicit Types (st : tstate) (i : I) (d : Z) (h : list top) (f : filt I E) (c : C).

  Definition indexed_filter d c (f : filt I E) : filt I E :=
    if satisfies eval (f_expr f) d c then mkF (f_python f) (f_id f) (f_expr f) (sadd d (f_ids f)) else f.

  Lemma filt_index_ok d c f : f_python f = true -> filt_index eval d c f = Ok (indexed_filter d c f).
  Proof.
    intros H. unfold filt_index, indexed_filter, satisfies. rewrite H. destruct (eval (f_expr f) d c); reflexivity.
  Qed.
  Lemma index_filters_ok d c ids st : NoDup ids -> (forall i f, get st i = Some f -> f_python f = true) ->
    exists st', index_filters eval d c ids st = (st', Ok tt) /\
      forall i, get st' i = match get st i with
        | Some f => Some (if existsb (eqb i) ids then indexed_filter d c f else f)
        | None => None end.
  Proof.
    revert st; induction ids as [|j ids IH]; intros st Hnd Hp; cbn [index_filters existsb].
    - exists st. split; [reflexivity|]. intros i. destruct (get st i); reflexivity.
    - inversion Hnd as [|? ? Hnj Hnd']; subst. destruct (get st j) as [f|] eqn:Ej.
      + rewrite (filt_index_ok d c f (Hp _ _ Ej)).
        destruct (IH (put j (indexed_filter d c f) st) Hnd') as (st' & Hr & Hg).
        { intros i f'. rewrite get_put. destruct (eqb i j); [|apply Hp]. intros [= <-].
          unfold indexed_filter. destruct (satisfies eval (f_expr f) d c); cbn; exact (Hp _ _ Ej). }
        exists st'. split; [exact Hr|]. intros i. rewrite Hg, get_put. destruct (eqb i j) eqn:Eij.
        * apply eqb_eq in Eij; subst. rewrite Ej. cbn. destruct (existsb (eqb j) ids) eqn:Ex; [|reflexivity].
          apply existsb_eqb_In in Ex. contradiction.
        * reflexivity.
      + destruct (IH st Hnd' Hp) as (st' & Hr & Hg). exists st'. split; [exact Hr|]. intros i. rewrite Hg.
        destruct (eqb i j) eqn:Eij; [|reflexivity]. apply eqb_eq in Eij; subst. rewrite Ej. reflexivity.
  Qed.
  Lemma t_index_ok d c st : (forall i f, get st i = Some f -> f_python f = true) ->
    t_index eval d c st = (mmap (fun _ f => indexed_filter d c f) st, Ok tt).
  Proof.
    intros Hp. unfold t_index. destruct (index_filters_ok d c (keys st) st (keys_NoDup st) Hp) as (st' & -> & Hg).
    f_equal. apply smap_ext. intros i. rewrite Hg, get_mmap. destruct (get st i) as [f|] eqn:Ei; [|reflexivity].
    assert (Hx : existsb (eqb i) (keys st) = true) by (apply existsb_eqb_In, keys_In; eauto).
    rewrite Hx. reflexivity.
  Qed.
  Lemma mem_indexed d c f k :
    mem k (f_ids (indexed_filter d c f)) = (eqb k d && satisfies eval (f_expr f) k c) || mem k (f_ids f).
  Proof.
    unfold indexed_filter. destruct (eqb k d) eqn:Ek.
    - apply eqb_eq in Ek; subst. destruct (satisfies eval (f_expr f) d c); cbn [f_ids andb orb]; [|reflexivity].
      rewrite mem_sadd, eqb_refl. reflexivity.
    - cbn [andb orb]. destruct (satisfies eval (f_expr f) d c); cbn [f_ids]; [|reflexivity].
      rewrite mem_sadd, Ek. reflexivity.
  Qed.
  Lemma indexed_id d c f : f_id (indexed_filter d c f) = f_id f.
  Proof. unfold indexed_filter. destruct (satisfies eval (f_expr f) d c); reflexivity. Qed.
  Lemma indexed_expr d c f : f_expr (indexed_filter d c f) = f_expr f.
  Proof. unfold indexed_filter. destruct (satisfies eval (f_expr f) d c); reflexivity. Qed.
  Lemma indexed_python d c f : f_python (indexed_filter d c f) = f_python f.
  Proof. unfold indexed_filter. destruct (satisfies eval (f_expr f) d c); reflexivity. Qed.

  Lemma unindex_ids d f k : mem k (f_ids (filt_unindex d f)) = if eqb k d then false else mem k (f_ids f).
  Proof.
    unfold filt_unindex. destruct (mem d (f_ids f)) eqn:Em; cbn [f_ids].
    - rewrite mem_srem. destruct (eqb k d); reflexivity.
    - destruct (eqb k d) eqn:Ek; [|reflexivity]. apply eqb_eq in Ek; subst. exact Em.
  Qed.
  Lemma unindex_fields d f : f_python (filt_unindex d f) = f_python f /\ f_id (filt_unindex d f) = f_id f /\
    f_expr (filt_unindex d f) = f_expr f.
  Proof. unfold filt_unindex. destruct (mem d (f_ids f)); auto. Qed.

  (** ** Contents of the filters *)
  Definition tinv st (rh : list top) : Prop :=
    forall i, match get st i with
      | Some f => f_python f = true /\ f_id f = i /\ expr_of i rh = Some (f_expr f) /\
                  forall d, mem d (f_ids f) = selected eval i d rh
      | None => expr_of i rh = None /\ forall d, selected eval i d rh = false
      end.

  Lemma t_step_inv st rh o : tinv st rh -> (forall f, o = TAdd f -> f_python f = true) ->
    tinv (fst (t_step eval st o)) (o :: rh) /\
    snd (t_step eval st o) = match o with
      | TDel i => match expr_of i rh with Some _ => Ok tt | None => Raise KeyError end
      | _ => Ok tt end.
  Proof.
    intros Hi Ho. destruct o as [f|j| | |j e|d c|d]; cbn [t_step fst snd].
    - split; [|reflexivity]. intros i. unfold t_addFilter. rewrite get_put. cbn [expr_of selected].
      destruct (eqb i (f_id f)) eqn:Ei.
      + apply eqb_eq in Ei. splits; auto.
      + apply Hi.
    - unfold t_delFilter. pose proof (Hi j) as Hj. destruct (get st j) as [f|] eqn:Ej; cbn [fst snd].
      + destruct Hj as (_ & _ & -> & _). split; [|reflexivity]. intros i. rewrite get_del. cbn [expr_of selected].
        destruct (eqb i j) eqn:Eij; [auto|apply Hi].
      + destruct Hj as [-> Hs]. split; [|reflexivity]. intros i. cbn [expr_of selected]. destruct (eqb i j) eqn:Eij.
        * apply eqb_eq in Eij; subst. rewrite Ej. auto.
        * apply Hi.
    - split; [|reflexivity]. intros i. rewrite get_empty. auto.
    - split; [|reflexivity]. intros i. unfold t_clearFilters. rewrite get_mmap. specialize (Hi i). cbn [expr_of selected].
      destruct (get st i) as [f|].
      + destruct Hi as (H1 & H2 & H3 & _). splits; auto.
      + destruct Hi as [H1 _]. auto.
    - pose proof (Hi j) as Hj. destruct (get st j) as [f|] eqn:Ej; cbn [fst snd]; (split; [|reflexivity]); intros i; cbn [expr_of selected].
      + rewrite get_put. destruct (eqb i j) eqn:Eij; [|apply Hi]. apply eqb_eq in Eij; subst.
        destruct Hj as (H1 & H2 & H3 & H4). rewrite H3. splits; auto.
      + destruct (eqb i j) eqn:Eij; [|apply Hi]. apply eqb_eq in Eij; subst. rewrite Ej. destruct Hj as [-> H]. auto.
    - rewrite t_index_ok.
      2:{ intros i f Hf. specialize (Hi i). rewrite Hf in Hi. apply Hi. }
      cbn [fst snd]. split; [|reflexivity]. intros i. rewrite get_mmap. specialize (Hi i). cbn [expr_of selected].
      destruct (get st i) as [f|].
      + destruct Hi as (H1 & H2 & H3 & H4). rewrite indexed_python, indexed_id, indexed_expr. splits; auto.
        intros k. rewrite mem_indexed, H3, H4. reflexivity.
      + destruct Hi as [H1 H2]. split; [exact H1|]. intros k. rewrite H1, H2. destruct (eqb k d); reflexivity.
    - split; [|reflexivity]. intros i. unfold t_unindex. rewrite get_mmap. specialize (Hi i). cbn [expr_of selected].
      destruct (get st i) as [f|].
      + destruct Hi as (H1 & H2 & H3 & H4). destruct (unindex_fields d f) as (-> & -> & ->). splits; auto.
        intros k. rewrite unindex_ids, H4. reflexivity.
      + destruct Hi as [H1 H2]. split; [exact H1|]. intros k. rewrite H2. destruct (eqb k d); reflexivity.
  Qed.
  Lemma t_run_inv h : python_only h -> tinv (t_run eval h) (rev h).
  Proof.
    induction h as [|o h IH] using rev_ind; intros Hp.
    - intros i. unfold t_run; cbn [fold_left rev]. rewrite get_empty. auto.
    - unfold t_run. rewrite fold_left_app, rev_unit. cbn [fold_left]. apply t_step_inv.
      + apply IH. intros f Hf. apply Hp, in_or_app. left; exact Hf.
      + intros f ->. apply Hp, in_or_app. right; left; reflexivity.
  Qed.

  Lemma filter_contents h i : python_only h ->
    match get (t_run eval h) i with
    | Some f => f_id f = i /\ expr_of i (rev h) = Some (f_expr f) /\
                forall d, mem d (f_ids f) = selected eval i d (rev h)
    | None => expr_of i (rev h) = None
    end.
  Proof.
    intros Hp. pose proof (t_run_inv h Hp i) as H. destruct (get (t_run eval h) i) as [f|]; apply H.
  Qed.
  Lemma topic_calls h o : python_only (h ++ [o]) ->
    snd (t_step eval (t_run eval h) o) = match o with
      | TDel i => match expr_of i (rev h) with Some _ => Ok tt | None => Raise KeyError end
      | _ => Ok tt end.
  Proof.
    intros Hp. apply t_step_inv.
    - apply t_run_inv. intros f Hf. apply Hp, in_or_app. left; exact Hf.
    - intros f ->. apply Hp, in_or_app. right; left; reflexivity.
  Qed.

  (** ** Search *)
  Lemma t_search_cases q op st : q <> TOther ->
    exists l, t_search q op st = combine_sets op (map (fun i => match get st i with Some f => f_ids f | None => empty end) l) /\
      forall i, In i l <-> named i q /\ exists f, get st i = Some f.
  Proof.
    intros Hq. set (query := match q with TId i => [i] | TIds l => l | TOther => [] end).
    exists (filter (fun i => existsb (eqb i) query) (keys st)). split.
    - destruct q; [reflexivity|reflexivity|contradiction].
    - intros i. rewrite filter_In, keys_In, existsb_eqb_In.
      assert (Hn : In i query <-> named i q).
      { unfold query. destruct q; cbn; [|reflexivity|reflexivity]. split; [intros [H|[]]; auto|intros ->; auto]. }
      rewrite Hn. tauto.
  Qed.
  Lemma t_search_or q st : q <> TOther ->
    exists s, t_search q OpOr st = Ok s /\
      forall d, mem d s = true <-> exists i f, named i q /\ get st i = Some f /\ mem d (f_ids f) = true.
  Proof.
    intros Hq. destruct (t_search_cases q OpOr st Hq) as (l & -> & Hl).
    destruct (combine_or (map (fun i => match get st i with Some f => f_ids f | None => empty end) l)) as (s & Hs & Hm).
    exists s. split; [exact Hs|]. intros d. rewrite Hm, existsb_exists. split.
    - intros (x & Hx & Hd). apply in_map_iff in Hx as (i & <- & Hi). apply Hl in Hi as (Hn & f & Hf).
      rewrite Hf in Hd. eauto.
    - intros (i & f & Hn & Hf & Hd). exists (f_ids f). split; [|exact Hd]. apply in_map_iff. exists i. rewrite Hf.
      split; [reflexivity|]. apply Hl. eauto.
  Qed.
  Lemma t_search_and q st : q <> TOther ->
    exists s, t_search q OpAnd st = Ok s /\
      forall d, mem d s = true <->
        (exists i f, named i q /\ get st i = Some f) /\
        (forall i f, named i q -> get st i = Some f -> mem d (f_ids f) = true).
  Proof.
    intros Hq. destruct (t_search_cases q OpAnd st Hq) as (l & -> & Hl).
    destruct (combine_and (map (fun i => match get st i with Some f => f_ids f | None => empty end) l)) as (s & Hs & Hm).
    exists s. split; [exact Hs|]. intros d. rewrite Hm. destruct l as [|i0 l].
    - cbn [map]. split; [discriminate|]. intros [(i & f & Hn & Hf) _].
      assert (Hin : In i []) by (apply Hl; eauto). destruct Hin.
    - cbn [map]. match goal with |- forallb _ (?x :: ?xs) = true <-> _ =>
        change (x :: xs) with (map (fun i => match get st i with Some g => f_ids g | None => empty end) (i0 :: l)) end.
      rewrite forallb_forall. split.
      + intros H. split.
        * destruct (proj1 (Hl i0) (or_introl eq_refl)) as (Hn & f & Hf). eauto.
        * intros i f Hn Hf. assert (Hin : In i (i0 :: l)) by (apply Hl; eauto).
          specialize (H (f_ids f)). apply H. apply in_map_iff. exists i. rewrite Hf. auto.
      + intros [_ H] x Hx. apply in_map_iff in Hx as (i & <- & Hi). apply Hl in Hi as (Hn & f & Hf). rewrite Hf. eauto.
  Qed.
  Lemma t_search_errors q op st :
    (t_search TOther op st = Raise TypeError) /\ (t_search q OpOther st = Raise TypeError).
  Proof. split; [reflexivity|]. destruct q; reflexivity. Qed.

  Lemma t_search_and_known q st : q <> TOther -> (exists i, named i q) ->
    (forall i, named i q -> exists f, get st i = Some f) ->
    exists s, t_search q OpAnd st = Ok s /\
      forall d, mem d s = true <-> forall i, named i q -> exists f, get st i = Some f /\ mem d (f_ids f) = true.
  Proof.
    intros Hq [i0 Hi0] Hk. destruct (t_search_and q st Hq) as (s & Hs & Hm). exists s. split; [exact Hs|].
    intros d. rewrite Hm. split.
    - intros [_ H] i Hn. destruct (Hk i Hn) as [f Hf]. exists f. split; [exact Hf|]. eapply H; eassumption.
    - intros H. split; [destruct (Hk i0 Hi0) as [f Hf]; eauto|]. intros i f Hn Hf. destruct (H i Hn) as (f' & Hf' & Hd).
      congruence.
  Qed.

  (** ** Reindexing *)
  Lemma reindex_fresh h d c i f : python_only h ->
    get (t_run eval (h ++ [TUnindex d; TIndex d c])) i = Some f ->
    mem d (f_ids f) = satisfies eval (f_expr f) d c.
  Proof.
    intros Hp Hf. pose proof (filter_contents (h ++ [TUnindex d; TIndex d c]) i) as H. rewrite Hf in H.
    destruct H as (_ & He & Hm).
    { intros g Hg. apply in_app_or in Hg as [Hg|[Hg|[Hg|[]]]]; [apply Hp, Hg|discriminate|discriminate]. }
    rewrite Hm. rewrite rev_app_distr in *. cbn [rev app selected expr_of] in *. rewrite He, eqb_refl.
    cbn [andb]. apply orb_false_r.
  Qed.
  Lemma reindex_adds h d c i f : python_only h ->
    get (t_run eval (h ++ [TIndex d c])) i = Some f ->
    mem d (f_ids f) = satisfies eval (f_expr f) d c || selected eval i d (rev h).
  Proof.
    intros Hp Hf. pose proof (filter_contents (h ++ [TIndex d c]) i) as H. rewrite Hf in H.
    destruct H as (_ & He & Hm).
    { intros g Hg. apply in_app_or in Hg as [Hg|[Hg|[]]]; [apply Hp, Hg|discriminate]. }
    rewrite Hm. rewrite rev_unit in *. cbn [selected expr_of] in *. rewrite He, eqb_refl. reflexivity.
  Qed.

  Lemma t_apply_arg (a : tapply I) st :
    fst (t_apply a st) = match a with TDict d => TDict (mkTDict None (td_query d)) | TPlain q => a end.
  Proof. destruct a as [[o [q|]]|q]; reflexivity. Qed.
  Lemma t_apply_means st q op :
    snd (t_apply (TPlain q) st) = t_search q OpAnd st /\
    snd (t_apply (TDict (mkTDict (Some op) (Some q))) st) = t_search q op st /\
    snd (t_apply (TDict (mkTDict None (Some q))) st) = t_search q OpAnd st /\
    (forall o, snd (t_apply (TDict (mkTDict o None)) st) = Raise KeyError).
  Proof. splits; reflexivity. Qed.
End L.
