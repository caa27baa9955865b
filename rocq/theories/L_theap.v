(** * Topic indexes with filter and set objects *)
From Verif Require Import S_theap L_topic L_keyword L_kwheap Sort SMap Ord.

(** The code shared with the keyword index: what the result of combining the sets
    [ls] is, and whether it is a new object. *)
Definition h_combine (op : koperator) (ls : list Z) (hp : mem_heap) : mem_heap * Z :=
  match op with
  | OpOr => let '(hp1, r) := alloc (false, multiunion (map (fun l => snd (load hp l)) ls)) hp in h_result hp1 (Some r)
  | _ => let '(hp1, rs) := h_and_loop None (isort (h_len_le hp) ls) hp in h_result hp1 rs
  end.
Lemma h_combine_ok op ls hp : op <> OpOther -> Forall (fun l => l < next hp) ls ->
  exists hp' r', h_combine op ls hp = (hp', r') /\ extends hp hp' /\ r' < next hp' /\
    combine_sets op (map (fun l => snd (load hp l)) ls) = Ok (snd (load hp' r')) /\
    (next hp <= r' \/ op = OpAnd /\ ls = [r']) /\
    (op = OpAnd -> forall l, ls = [l] -> is_empty (snd (load hp l)) = false -> r' = l).
Proof.
  intros Hop Hlt. destruct op; [| |contradiction]; unfold h_combine.
  - destruct (h_and_loop_none (isort (h_len_le hp) ls) hp) as (hp1 & rs & E1 & X1 & HA & HR).
    { rewrite Forall_forall in *. intros l Hl. apply Hlt. eapply Permutation_in; [apply isort_perm|exact Hl]. }
    rewrite E1.
    destruct (h_result_ok hp1 rs) as (hp2 & r2 & E2 & X2 & Hr2 & HC & Hor).
    { destruct rs; [apply HR|exact Logic.I]. }
    exists hp2, r2. split; [exact E2|]. split; [eapply extends_trans; eassumption|]. split; [exact Hr2|].
    split; [|split].
    + cbn [combine_sets]. rewrite HC. f_equal.
      rewrite <- (isort_map (fun l => snd (load hp l)) len_le ls).
      change (fun x y : Z => len_le (snd (load hp x)) (snd (load hp y))) with (h_len_le hp).
      rewrite HA. destruct rs; reflexivity.
    + destruct X1 as [X1n X1l].
      destruct Hor as [Hge|[-> Hne]]; [left; lia|].
      destruct HR as [_ [Hge|[He|Heq]]]; [left; lia|congruence|].
      right. split; [reflexivity|].
      pose proof (isort_perm (h_len_le hp) ls) as P. rewrite Heq in P. apply Permutation_length_1_inv in P. exact P.
    + intros _ l -> Hne. cbn [isort fold_right insert h_and_loop] in E1. rewrite Hne in E1.
      pose proof (f_equal fst E1) as F1; pose proof (f_equal snd E1) as F2; cbn [fst snd] in F1, F2; subst hp1 rs.
      cbn [h_result] in E2. rewrite Hne in E2. pose proof (f_equal snd E2) as F3. symmetry. exact F3.
  - destruct (alloc (false, multiunion (map (fun l => snd (load hp l)) ls)) hp) as [hp1 r] eqn:Ea.
    assert (X1 : extends hp hp1) by (replace hp1 with (fst (hp1, r)) by reflexivity; rewrite <- Ea; apply extends_alloc).
    assert (Hr : r = next hp) by (unfold alloc in Ea; injection Ea as _ <-; reflexivity).
    assert (Hr1 : r < next hp1) by (unfold alloc in Ea; injection Ea as <- <-; cbn; lia).
    assert (Hv : load hp1 r = (false, multiunion (map (fun l => snd (load hp l)) ls))).
    { subst r. replace hp1 with (fst (hp1, next hp)) by reflexivity. rewrite <- Ea, load_alloc, eqb_refl. reflexivity. }
    destruct (h_result_ok hp1 (Some r) Hr1) as (hp2 & r2 & -> & X2 & Hr2 & HC & Hor).
    exists hp2, r2. split; [reflexivity|]. split; [eapply extends_trans; eassumption|]. split; [exact Hr2|].
    split; [|split].
    + cbn [combine_sets]. rewrite HC, Hv. reflexivity.
    + left. destruct X1 as [X1n _]. destruct Hor as [|[[= <-] _]]; lia.
    + discriminate.
Qed.

Section L.
  Context {I : Type} `{OI : Ord I} {E C : Type}.
  Variable eval : E -> Z -> C -> evres.
  Notation world := (world I E).
  Notation hfilt := (hfilt I E).
  Notation history := (list (wop I E C)).
  Implicit Types (w : world) (n r d l : Z) (f : hfilt) (rh h : history) (o : wop I E C) (i : I).

  (** Every filter has its own set. *)
  Definition wwf w : Prop :=
    (forall r f, get (w_filters w) r = Some f -> hf_set f < next (w_heap w)) /\
    (forall r r' f f', get (w_filters w) r = Some f -> get (w_filters w) r' = Some f' -> hf_set f = hf_set f' -> r = r').
  Definition wloose w l : Prop := l < next (w_heap w) /\ forall r f, get (w_filters w) r = Some f -> hf_set f <> l.
  Definition wframe w w' : Prop :=
    next (w_heap w) <= next (w_heap w') /\
    forall l, wloose w l -> set_at w' l = set_at w l /\ wloose w' l.
  Lemma wframe_refl w : wframe w w.
  Proof. split; [lia|auto]. Qed.
  Lemma wframe_trans a b c : wframe a b -> wframe b c -> wframe a c.
  Proof.
    intros [H1 H2] [H3 H4]. split; [lia|]. intros l Hl. destruct (H2 l Hl) as [E1 Hl'].
    destruct (H4 l Hl') as [E2 Hl'']. split; [congruence|exact Hl''].
  Qed.
  Definition wgood w w' : Prop := wwf w' /\ wframe w w'.
  Lemma wgood_trans a b c : wgood a b -> wgood b c -> wgood a c.
  Proof. intros [_ F1] [H2 F2]. split; [exact H2|eapply wframe_trans; eassumption]. Qed.
  Lemma wgood_refl w : wwf w -> wgood w w.
  Proof. intros H. split; [exact H|apply wframe_refl]. Qed.

  (** The attributes of a filter with the contents of its set. *)
  Definition fview w r : option (bool * I * E * sset Z) :=
    match get (w_filters w) r with
    | Some f => Some (hf_python f, hf_id f, hf_expr f, set_at w (hf_set f))
    | None => None
    end.

  (** Replacing the contents of one filter's set. *)
  Definition stored l s w : world := mkWd (store l (false, s) (w_heap w)) (w_filters w) (w_count w) (w_indexes w).
  Lemma set_stored l s w l' : set_at (stored l s w) l' = if eqb l' l then s else set_at w l'.
  Proof. unfold set_at, stored; cbn [w_heap]. rewrite load_store. destruct (eqb l' l); reflexivity. Qed.
  Lemma stored_good r f s w : wwf w -> get (w_filters w) r = Some f -> wgood w (stored (hf_set f) s w).
  Proof.
    intros [H1 H2] Hf. split; [split|split].
    - exact H1.
    - exact H2.
    - cbn. lia.
    - intros l [Hl Hn]. split; [|split; [exact Hl|exact Hn]].
      rewrite set_stored. destruct (eqb l (hf_set f)) eqn:El; [|reflexivity]. apply eqb_eq in El. destruct (Hn r f Hf). auto.
  Qed.
  Lemma stored_view r f s w r' : wwf w -> get (w_filters w) r = Some f ->
    fview (stored (hf_set f) s w) r' = if eqb r' r then Some (hf_python f, hf_id f, hf_expr f, s) else fview w r'.
  Proof.
    intros [H1 H2] Hf. unfold fview. change (w_filters (stored (hf_set f) s w)) with (w_filters w).
    destruct (eqb r' r) eqn:Er.
    - apply eqb_eq in Er; subst. rewrite Hf, set_stored, eqb_refl. reflexivity.
    - destruct (get (w_filters w) r') as [f'|] eqn:Hf'; [|reflexivity]. rewrite set_stored.
      destruct (eqb (hf_set f') (hf_set f)) eqn:El; [|reflexivity].
      apply eqb_eq in El. apply eqb_neq in Er. destruct Er. eapply H2; eassumption.
  Qed.
  (** A filter object with a new, empty set. *)
  Definition renewed r (b : bool) (i : I) (e : E) k w : world :=
    mkWd (fst (alloc (false, empty) (w_heap w))) (put r (mkHF b i e (next (w_heap w))) (w_filters w)) k (w_indexes w).
  Lemma set_renewed r b i e k w l : l < next (w_heap w) -> set_at (renewed r b i e k w) l = set_at w l.
  Proof. intros Hl. unfold set_at, renewed; cbn [w_heap]. rewrite load_alloc, Zeqb_lt by exact Hl. reflexivity. Qed.
  Lemma renewed_good r b i e k w : wwf w -> wgood w (renewed r b i e k w).
  Proof.
    intros [H1 H2]. split; [split|split].
    - intros r' f'. cbn [renewed w_filters w_heap]. rewrite get_put. destruct (eqb r' r).
      + intros [= <-]. cbn. lia.
      + intros Hf. apply H1 in Hf. cbn. lia.
    - intros r1 r2 f1 f2. cbn [renewed w_filters]. rewrite !get_put. destruct (eqb r1 r) eqn:E1, (eqb r2 r) eqn:E2.
      + apply eqb_eq in E1, E2. congruence.
      + intros [= <-] Hf. cbn [hf_set]. apply H1 in Hf. lia.
      + intros Hf [= <-]. cbn [hf_set]. apply H1 in Hf. lia.
      + apply H2.
    - cbn. lia.
    - intros l [Hl Hn]. split; [apply set_renewed, Hl|]. split; [cbn; lia|].
      intros r' f'. cbn [renewed w_filters]. rewrite get_put. destruct (eqb r' r); [|apply Hn].
      intros [= <-]. cbn [hf_set]. lia.
  Qed.
  Lemma renewed_view r b i e k w r' : wwf w ->
    fview (renewed r b i e k w) r' = if eqb r' r then Some (b, i, e, empty) else fview w r'.
  Proof.
    intros [H1 H2]. unfold fview. cbn [renewed w_filters]. rewrite get_put. destruct (eqb r' r).
    - cbn [hf_python hf_id hf_expr hf_set]. unfold set_at; cbn [renewed w_heap]. rewrite load_alloc, eqb_refl. reflexivity.
    - destruct (get (w_filters w) r') as [f'|] eqn:Hf'; [|reflexivity].
      f_equal. f_equal. apply (set_renewed r b i e k). apply (H1 r' f' Hf').
  Qed.

  (** *** Calls of a filter *)
  Lemma fclear_good r w : wwf w -> wgood w (w_fclear r w).
  Proof. intros H. unfold w_fclear. destruct (get (w_filters w) r) as [f|]; [apply renewed_good, H|apply wgood_refl, H]. Qed.
  Lemma fclear_view r w r' : wwf w ->
    fview (w_fclear r w) r' = if eqb r' r then match fview w r' with Some (b, i, e, _) => Some (b, i, e, empty) | None => None end
                              else fview w r'.
  Proof.
    intros H. unfold w_fclear. destruct (get (w_filters w) r) as [f|] eqn:Hf.
    - change (fview (renewed r (hf_python f) (hf_id f) (hf_expr f) (w_count w) w) r' = if eqb r' r then match fview w r' with Some (b, i, e, _) => Some (b, i, e, empty) | None => None end
                              else fview w r').
      rewrite renewed_view by exact H. destruct (eqb r' r) eqn:Er; [|reflexivity].
      apply eqb_eq in Er; subst. unfold fview. rewrite Hf. reflexivity.
    - destruct (eqb r' r) eqn:Er; [|reflexivity]. apply eqb_eq in Er; subst. unfold fview. rewrite Hf. reflexivity.
  Qed.
  Lemma fclear_rest r w : w_count (w_fclear r w) = w_count w /\ w_indexes (w_fclear r w) = w_indexes w.
  Proof. unfold w_fclear. destruct (get (w_filters w) r); split; reflexivity. Qed.

  Definition index_view d (c : C) (v : option (bool * I * E * sset Z)) : option (bool * I * E * sset Z) :=
    match v with
    | Some (b, i, e, s) => Some (b, i, e, if satisfies eval e d c then sadd d s else s)
    | None => None
    end.
  Lemma index_view_twice d c v : index_view d c (index_view d c v) = index_view d c v.
  Proof.
    destruct v as [[[[b i] e] s]|]; [|reflexivity]. cbn [index_view]. f_equal. f_equal.
    destruct (satisfies eval e d c); [|reflexivity]. apply sset_ext. intros k. rewrite !mem_sadd. destruct (eqb k d); reflexivity.
  Qed.
  Lemma findex_ok d c r w : wwf w -> (forall f, get (w_filters w) r = Some f -> hf_python f = true) ->
    snd (w_findex eval d c r w) = Ok tt /\ wgood w (fst (w_findex eval d c r w)) /\
    (forall r', fview (fst (w_findex eval d c r w)) r' = if eqb r' r then index_view d c (fview w r') else fview w r') /\
    w_filters (fst (w_findex eval d c r w)) = w_filters w /\
    w_count (fst (w_findex eval d c r w)) = w_count w /\ w_indexes (fst (w_findex eval d c r w)) = w_indexes w.
  Proof.
    intros H Hp. unfold w_findex. destruct (get (w_filters w) r) as [f|] eqn:Hf.
    - rewrite (Hp f eq_refl).
      destruct (eval (hf_expr f) d c) eqn:Ee; cbn [fst snd].
      + split; [reflexivity|]. change (mkWd (store (hf_set f) (false, sadd d (set_at w (hf_set f))) (w_heap w))
                            (w_filters w) (w_count w) (w_indexes w)) with (stored (hf_set f) (sadd d (set_at w (hf_set f))) w).
        split; [eapply stored_good; eassumption|]. split; [|repeat split].
        intros r'. rewrite (stored_view r) by assumption. destruct (eqb r' r) eqn:Er; [|reflexivity].
        apply eqb_eq in Er; subst. unfold fview. rewrite Hf. cbn [index_view]. unfold satisfies. rewrite Ee. reflexivity.
      + split; [reflexivity|]. split; [apply wgood_refl, H|]. split; [|repeat split].
        intros r'. destruct (eqb r' r) eqn:Er; [|reflexivity].
        apply eqb_eq in Er; subst. unfold fview. rewrite Hf. cbn [index_view]. unfold satisfies. rewrite Ee. reflexivity.
      + split; [reflexivity|]. split; [apply wgood_refl, H|]. split; [|repeat split].
        intros r'. destruct (eqb r' r) eqn:Er; [|reflexivity].
        apply eqb_eq in Er; subst. unfold fview. rewrite Hf. cbn [index_view]. unfold satisfies. rewrite Ee. reflexivity.
    - cbn [fst snd]. split; [reflexivity|]. split; [apply wgood_refl, H|]. split; [|repeat split].
      intros r'. destruct (eqb r' r) eqn:Er; [|reflexivity]. apply eqb_eq in Er; subst. unfold fview. rewrite Hf. reflexivity.
  Qed.

  Definition unindex_view d (v : option (bool * I * E * sset Z)) : option (bool * I * E * sset Z) :=
    match v with Some (b, i, e, s) => Some (b, i, e, srem d s) | None => None end.
  Lemma unindex_view_twice d v : unindex_view d (unindex_view d v) = unindex_view d v.
  Proof.
    destruct v as [[[[b i] e] s]|]; [|reflexivity]. cbn [unindex_view]. f_equal. f_equal.
    apply sset_ext. intros k. rewrite !mem_srem. destruct (eqb k d); reflexivity.
  Qed.
  Lemma srem_absent d (s : sset Z) : mem d s = false -> srem d s = s.
  Proof.
    intros Hd. apply sset_ext. intros k. rewrite mem_srem. destruct (eqb k d) eqn:Ek; [|reflexivity].
    apply eqb_eq in Ek; subst. rewrite Hd. reflexivity.
  Qed.
  Lemma funindex_ok d r w : wwf w ->
    wgood w (w_funindex d r w) /\
    (forall r', fview (w_funindex d r w) r' = if eqb r' r then unindex_view d (fview w r') else fview w r') /\
    w_filters (w_funindex d r w) = w_filters w /\
    w_count (w_funindex d r w) = w_count w /\ w_indexes (w_funindex d r w) = w_indexes w.
  Proof.
    intros H. unfold w_funindex. destruct (get (w_filters w) r) as [f|] eqn:Hf.
    - destruct (mem d (set_at w (hf_set f))) eqn:Ed.
      + change (mkWd (store (hf_set f) (false, srem d (set_at w (hf_set f))) (w_heap w))
                            (w_filters w) (w_count w) (w_indexes w)) with (stored (hf_set f) (srem d (set_at w (hf_set f))) w).
        split; [eapply stored_good; eassumption|]. split; [|repeat split].
        intros r'. rewrite (stored_view r) by assumption. destruct (eqb r' r) eqn:Er; [|reflexivity].
        apply eqb_eq in Er; subst. unfold fview. rewrite Hf. reflexivity.
      + split; [apply wgood_refl, H|]. split; [|repeat split].
        intros r'. destruct (eqb r' r) eqn:Er; [|reflexivity].
        apply eqb_eq in Er; subst. unfold fview. rewrite Hf. cbn [unindex_view]. rewrite srem_absent by exact Ed. reflexivity.
    - split; [apply wgood_refl, H|]. split; [|repeat split].
      intros r'. destruct (eqb r' r) eqn:Er; [|reflexivity]. apply eqb_eq in Er; subst. unfold fview. rewrite Hf. reflexivity.
  Qed.

  (** *** The loops over the filters of an index *)
  Definition inb r (rs : list Z) : bool := existsb (eqb r) rs.
  Lemma clear_loop rs w : wwf w ->
    let w' := fold_left (fun w' r => w_fclear r w') rs w in
    wgood w w' /\
    (forall r', fview w' r' = if inb r' rs then match fview w r' with Some (b, i, e, _) => Some (b, i, e, empty) | None => None end
                              else fview w r') /\
    w_count w' = w_count w /\ w_indexes w' = w_indexes w.
  Proof.
    revert w; induction rs as [|r rs IH]; intros w H; cbn [fold_left].
    - split; [apply wgood_refl, H|]. repeat split.
    - pose proof (fclear_good r w H) as G. destruct (fclear_rest r w) as [Ec Ei].
      destruct (IH (w_fclear r w) (proj1 G)) as (G' & V' & Ec' & Ei').
      split; [eapply wgood_trans; eassumption|]. split; [|split; congruence].
      intros r'. rewrite V', fclear_view by exact H. cbn [inb existsb]. fold (inb r' rs).
      destruct (eqb r' r); cbn [orb].
      + destruct (fview w r') as [[[[? ?] ?] ?]|]; destruct (inb r' rs); reflexivity.
      + reflexivity.
  Qed.
  Lemma index_loop d c rs w : wwf w -> (forall r f, get (w_filters w) r = Some f -> hf_python f = true) ->
    let x := w_index_filters eval d c rs w in
    snd x = Ok tt /\ wgood w (fst x) /\
    (forall r', fview (fst x) r' = if inb r' rs then index_view d c (fview w r') else fview w r') /\
    w_filters (fst x) = w_filters w /\ w_count (fst x) = w_count w /\ w_indexes (fst x) = w_indexes w.
  Proof.
    revert w; induction rs as [|r rs IH]; intros w H Hp; cbn [w_index_filters].
    - cbn. split; [reflexivity|]. split; [apply wgood_refl, H|]. repeat split.
    - destruct (findex_ok d c r w H (Hp r)) as (Er & G & V & Ef & Ec & Ei).
      destruct (w_findex eval d c r w) as [w1 out]; cbn [fst snd] in *. subst out.
      destruct (IH w1 (proj1 G)) as (Er' & G' & V' & Ef' & Ec' & Ei').
      { rewrite Ef. exact Hp. }
      split; [exact Er'|]. split; [eapply wgood_trans; eassumption|]. split; [|repeat split; congruence].
      intros r'. rewrite V', V. cbn [inb existsb]. fold (inb r' rs).
      destruct (eqb r' r); cbn [orb]; [|reflexivity]. destruct (inb r' rs); [apply index_view_twice|reflexivity].
  Qed.
  Lemma unindex_loop d rs w : wwf w ->
    let w' := fold_left (fun w' r => w_funindex d r w') rs w in
    wgood w w' /\
    (forall r', fview w' r' = if inb r' rs then unindex_view d (fview w r') else fview w r') /\
    w_filters w' = w_filters w /\ w_count w' = w_count w /\ w_indexes w' = w_indexes w.
  Proof.
    revert w; induction rs as [|r rs IH]; intros w H; cbn [fold_left].
    - split; [apply wgood_refl, H|]. repeat split.
    - destruct (funindex_ok d r w H) as (G & V & Ef & Ec & Ei).
      destruct (IH (w_funindex d r w) (proj1 G)) as (G' & V' & Ef' & Ec' & Ei').
      split; [eapply wgood_trans; eassumption|]. split; [|repeat split; congruence].
      intros r'. rewrite V', V. cbn [inb existsb]. fold (inb r' rs).
      destruct (eqb r' r); cbn [orb]; [|reflexivity]. destruct (inb r' rs); [apply unindex_view_twice|reflexivity].
  Qed.

  (** *** The invariant *)
  Record winv w rh : Prop := {
    i_wf : wwf w;
    i_count : w_count w = filters_made rh;
    i_view : forall r, match fview w r with
                       | Some (b, i, e, s) => b = true /\ id_of r rh = Some i /\ expr_now r rh = Some e /\
                                              forall d, mem d s = inside eval r d rh
                       | None => id_of r rh = None /\ expr_now r rh = None
                       end;
    i_held : forall n i, get (index_at w n) i = held n i rh }.

  Lemma id_of_lt r rh i : id_of r rh = Some i -> 0 <= r < filters_made rh.
  Proof.
    assert (Hc : forall rh', 0 <= filters_made rh').
    { induction rh' as [|[] rh' IH]; cbn [filters_made]; lia. }
    induction rh as [|[] rh IH]; cbn [id_of filters_made]; auto; [discriminate|].
    destruct (eqb r (filters_made rh)) eqn:Er.
    - apply eqb_eq in Er; subst. specialize (Hc rh). lia.
    - intros H. apply IH in H. lia.
  Qed.
  (** A filter is held under its own id. *)
  Lemma held_id n i r rh : held n i rh = Some r -> id_of r rh = Some i.
  Proof.
    induction rh as [|[b i' e|r' e|r'|r' d c|r' d|n' r'|n' i'|n'|n'|n' d c|n' d|n' q op] rh IH]; cbn [held id_of]; auto.
    - discriminate.
    - intros H. apply IH in H. pose proof (id_of_lt _ _ _ H).
      assert (Er : eqb r (filters_made rh) = false) by (apply eqb_neq; lia). rewrite Er. exact H.
    - destruct (eqb n n'); cbn [andb]; auto. destruct (id_of r' rh) as [i'|] eqn:Ei; auto.
      destruct (eqb i i') eqn:Ee; auto. apply eqb_eq in Ee; subst. intros [= <-]. exact Ei.
    - destruct (eqb n n' && eqb i i'); [discriminate|auto].
    - destruct (eqb n n'); [discriminate|auto].
  Qed.
  Lemma holds_In w rh n r : winv w rh -> inb r (vals (index_at w n)) = holds n r rh.
  Proof.
    intros H. unfold holds. apply Bool.eq_iff_eq_true. unfold inb. rewrite existsb_exists. split.
    - intros (r' & Hin & Er). apply eqb_eq in Er; subst r'. apply vals_In in Hin as [i Hi].
      rewrite (i_held _ _ H) in Hi. rewrite (held_id _ _ _ _ Hi), Hi. apply eqb_refl.
    - destruct (id_of r rh) as [i|]; [|discriminate]. destruct (held n i rh) as [r'|] eqn:Eh; [|discriminate].
      intros Er. apply eqb_eq in Er; subst r'. exists r. split; [|apply eqb_refl].
      apply vals_In. exists i. rewrite (i_held _ _ H). exact Eh.
  Qed.

  (** ** Search *)
  Lemma heap_only w hp : wwf w -> extends (w_heap w) hp ->
    wgood w (with_heap hp w) /\ forall r, fview (with_heap hp w) r = fview w r.
  Proof.
    intros [H1 H2] [X1 X2]. split; [split; [split|split]|].
    - intros r f Hf. apply H1 in Hf. cbn. lia.
    - exact H2.
    - exact X1.
    - intros l [Hl Hn]. split; [unfold set_at; cbn [with_heap w_heap]; rewrite X2 by exact Hl; reflexivity|].
      split; [cbn; lia|exact Hn].
    - intros r. unfold fview. cbn [with_heap w_filters]. destruct (get (w_filters w) r) as [f|] eqn:Hf; [|reflexivity].
      unfold set_at; cbn [with_heap w_heap]. rewrite X2 by (apply (H1 r f Hf)). reflexivity.
  Qed.
  Definition qids (q : tquery I) : list I := match q with TId i => [i] | TIds l => l | TOther => [] end.
  Lemma named_qids q i : In i (qids q) <-> named i q.
  Proof. destruct q; cbn; [|reflexivity|reflexivity]. split; [intros [H|[]]; auto|intros ->; auto]. Qed.
  Definition named_filters n q w : list Z :=
    map (fun i => match get (index_at w n) i with Some r => r | None => 0 end)
        (filter (fun i => existsb (eqb i) (qids q)) (keys (index_at w n))).
  Lemma held_filter w rh n i r : winv w rh -> held n i rh = Some r -> exists f, get (w_filters w) r = Some f.
  Proof.
    intros H Hh. apply held_id in Hh. pose proof (i_view _ _ H r) as V. unfold fview in V.
    destruct (get (w_filters w) r) as [f|]; [eauto|]. destruct V as [V _]. congruence.
  Qed.
  Lemma named_filters_In w rh n q r : winv w rh -> In r (named_filters n q w) <-> asked_for n q r rh.
  Proof.
    intros H. unfold named_filters, asked_for. rewrite in_map_iff. split.
    - intros (i & Hr & Hi). apply filter_In in Hi as [Hk Hq]. rewrite existsb_eqb_In, named_qids in Hq.
      apply keys_In in Hk as [r' Hr']. rewrite Hr' in Hr. subst r'. exists i. split; [exact Hq|].
      rewrite <- (i_held _ _ H). exact Hr'.
    - intros (i & Hq & Hh). rewrite <- (i_held _ _ H) in Hh. exists i. rewrite Hh. split; [reflexivity|].
      apply filter_In. rewrite existsb_eqb_In, named_qids. split; [|exact Hq]. apply keys_In. eauto.
  Qed.
  Lemma named_filters_NoDup w rh n q : winv w rh -> NoDup (named_filters n q w).
  Proof.
    intros H. unfold named_filters.
    assert (Hnd : NoDup (filter (fun i => existsb (eqb i) (qids q)) (keys (index_at w n)))) by apply NoDup_filter, keys_NoDup.
    assert (Hk : forall i, In i (filter (fun i => existsb (eqb i) (qids q)) (keys (index_at w n))) ->
      exists r, held n i rh = Some r).
    { intros i Hi. apply filter_In in Hi as [Hi _]. apply keys_In in Hi as [r Hr]. rewrite (i_held _ _ H) in Hr. eauto. }
    induction (filter (fun i => existsb (eqb i) (qids q)) (keys (index_at w n))) as [|i l IH]; cbn [map]; [constructor|].
    inversion Hnd as [|? ? Hn Hnd']; subst. constructor.
    - intros Hin. apply in_map_iff in Hin as (j & Ej & Hj).
      destruct (Hk i (or_introl eq_refl)) as [ri Hi]. destruct (Hk j (or_intror Hj)) as [rj Hrj].
      rewrite !(i_held _ _ H), Hi, Hrj in Ej. subst rj. apply held_id in Hi, Hrj.
      rewrite Hi in Hrj. injection Hrj as ->. contradiction.
    - apply IH; [exact Hnd'|]. intros j Hj. apply Hk. right. exact Hj.
  Qed.
  Lemma named_sets_eq w rh n q : winv w rh ->
    named_sets n (qids q) w = map (fun r => match w_getIds r w with Some l => l | None => 0 end) (named_filters n q w).
  Proof.
    intros H. unfold named_sets, named_filters. rewrite map_map. apply map_ext_in. intros i Hi.
    apply filter_In in Hi as [Hi _]. apply keys_In in Hi as [r Hr]. rewrite Hr. reflexivity.
  Qed.

  Lemma search_ok n q op w rh : winv w rh ->
    let '(w', out) := w_search n q op w in
    wgood w w' /\ (forall r, fview w' r = fview w r) /\
    w_filters w' = w_filters w /\ w_count w' = w_count w /\ w_indexes w' = w_indexes w /\
    match out with
    | Raise e => e = TypeError /\ (q = TOther \/ op = OpOther)
    | Ok l => q <> TOther /\ op <> OpOther /\
        (forall d, mem d (set_at w' l) = true <-> finds eval n q op d rh) /\
        (wloose w' l \/ op = OpAnd /\ exists r, (forall r', asked_for n q r' rh <-> r' = r) /\ w_getIds r w' = Some l) /\
        (op = OpAnd -> forall r d, (forall r', asked_for n q r' rh <-> r' = r) -> inside eval r d rh = true ->
         w_getIds r w' = Some l)
    end.
  Proof.
    intros H. pose proof (i_wf _ _ H) as [W1 W2].
    assert (Htriv : wgood w w /\ (forall r, fview w r = fview w r) /\
      w_filters w = w_filters w /\ w_count w = w_count w /\ w_indexes w = w_indexes w).
    { split; [apply wgood_refl; split; assumption|]. auto. }
    set (ls := named_sets n (qids q) w).
    assert (Els : ls = map (fun r => match w_getIds r w with Some l => l | None => 0 end) (named_filters n q w)).
    { apply (named_sets_eq w rh). exact H. }
    assert (Hids : forall r, In r (named_filters n q w) -> exists f, get (w_filters w) r = Some f /\ w_getIds r w = Some (hf_set f)).
    { intros r Hr. apply (named_filters_In w rh n q r H) in Hr as (i & _ & Hh).
      destruct (held_filter _ _ _ _ _ H Hh) as [f Hf]. exists f. split; [exact Hf|]. unfold w_getIds. rewrite Hf. reflexivity. }
    assert (Hlt : Forall (fun l => l < next (w_heap w)) ls).
    { rewrite Els. apply Forall_forall. intros l Hl. apply in_map_iff in Hl as (r & <- & Hr).
      destruct (Hids r Hr) as (f & Hf & ->). apply (W1 r f Hf). }
    assert (Hin : forall r d f, get (w_filters w) r = Some f -> mem d (set_at w (hf_set f)) = inside eval r d rh).
    { intros r d f Hf. pose proof (i_view _ _ H r) as V. unfold fview in V. rewrite Hf in V. apply V. }
    assert (Hfinds : op <> OpOther -> forall s, combine_sets op (map (fun l => snd (load (w_heap w) l)) ls) = Ok s ->
      forall d, mem d s = true <-> finds eval n q op d rh).
    { intros Hop s Hs d. destruct op; [| |contradiction]; cbn [finds].
      - destruct (combine_and (map (fun l => snd (load (w_heap w) l)) ls)) as (s' & Hs' & Hm).
        rewrite Hs' in Hs. injection Hs as <-. rewrite Hm.
        assert (Hall : forall x, In x (map (fun l => snd (load (w_heap w) l)) ls) <->
                                 exists r f, asked_for n q r rh /\ get (w_filters w) r = Some f /\ x = set_at w (hf_set f)).
        { intros x. rewrite Els, map_map, in_map_iff. split.
          - intros (r & Ex & Hr). destruct (Hids r Hr) as (f & Hf & Eg). rewrite Eg in Ex. exists r, f.
            split; [apply (named_filters_In w); assumption|]. split; [exact Hf|]. symmetry. exact Ex.
          - intros (r & f & Hr & Hf & ->). exists r. unfold w_getIds. rewrite Hf. split; [reflexivity|].
            apply (named_filters_In w rh); assumption. }
        destruct (map (fun l => snd (load (w_heap w) l)) ls) as [|x xs].
        + split; [discriminate|]. intros [[r Hr] _]. assert (Hr' := Hr). destruct Hr' as (i & _ & Hh).
          destruct (held_filter _ _ _ _ _ H Hh) as [f Hf].
          assert (Hx : In (set_at w (hf_set f)) []) by (apply Hall; eauto). destruct Hx.
        + rewrite forallb_forall. split.
          * intros Hd. split.
            -- destruct (proj1 (Hall x) (or_introl eq_refl)) as (r & f & Hr & _). eauto.
            -- intros r Hr. assert (Hr' := Hr). destruct Hr' as (i & _ & Hh).
               destruct (held_filter _ _ _ _ _ H Hh) as [f Hf]. rewrite <- (Hin r d f Hf). apply Hd, Hall. eauto.
          * intros [_ Hd] y Hy. apply Hall in Hy as (r & f & Hr & Hf & ->). rewrite (Hin r d f Hf). apply Hd, Hr.
      - destruct (combine_or (map (fun l => snd (load (w_heap w) l)) ls)) as (s' & Hs' & Hm).
        rewrite Hs' in Hs. injection Hs as <-. rewrite Hm, existsb_exists. split.
        + intros (x & Hx & Hd). rewrite Els, map_map in Hx. apply in_map_iff in Hx as (r & <- & Hr).
          destruct (Hids r Hr) as (f & Hf & Eg). rewrite Eg in Hd. exists r. split; [apply (named_filters_In w); assumption|].
          rewrite <- (Hin r d f Hf). exact Hd.
        + intros (r & Hr & Hd). assert (Hr' := Hr). destruct Hr' as (i & _ & Hh).
          destruct (held_filter _ _ _ _ _ H Hh) as [f Hf]. exists (set_at w (hf_set f)). split.
          * rewrite Els, map_map. apply in_map_iff. exists r. unfold w_getIds. rewrite Hf. split; [reflexivity|].
            apply (named_filters_In w rh); assumption.
          * rewrite (Hin r d f Hf). exact Hd. }
    assert (Hmain : q <> TOther -> op <> OpOther ->
      let '(w', out) := let '(hp2, r2) := h_combine op ls (w_heap w) in (with_heap hp2 w, Ok r2) in
    wgood w w' /\ (forall r, fview w' r = fview w r) /\
    w_filters w' = w_filters w /\ w_count w' = w_count w /\ w_indexes w' = w_indexes w /\
    match out with
    | Raise e => e = TypeError /\ (q = TOther \/ op = OpOther)
    | Ok l => q <> TOther /\ op <> OpOther /\
        (forall d, mem d (set_at w' l) = true <-> finds eval n q op d rh) /\
        (wloose w' l \/ op = OpAnd /\ exists r, (forall r', asked_for n q r' rh <-> r' = r) /\ w_getIds r w' = Some l) /\
        (op = OpAnd -> forall r d, (forall r', asked_for n q r' rh <-> r' = r) -> inside eval r d rh = true ->
         w_getIds r w' = Some l)
    end).
    { intros Hq Hop. destruct (h_combine_ok op ls (w_heap w) Hop Hlt) as (hp & l & Ec & X & Hl & Hs & Hor & Hone).
      rewrite Ec. destruct (heap_only w hp (conj W1 W2) X) as [G V].
      split; [exact G|]. split; [exact V|]. split; [reflexivity|]. split; [reflexivity|]. split; [reflexivity|].
      split; [exact Hq|]. split; [exact Hop|]. split; [apply Hfinds; assumption|].
      assert (Hasked : forall r, In r (named_filters n q w) <-> asked_for n q r rh) by (intros r; apply (named_filters_In w); exact H).
      split.
      - destruct Hor as [Hge|[-> Hls]].
        + left. split; [exact Hl|]. intros r f Hf. apply (W1 r f) in Hf. lia.
        + right. split; [reflexivity|]. rewrite Els in Hls.
          destruct (named_filters n q w) as [|r [|r' rs]] eqn:En; [discriminate| |discriminate].
          cbn [map] in Hls. injection Hls as Hls. exists r. split.
          * intros r'. rewrite <- Hasked. cbn. split; [intros [?|[]]; auto|auto].
          * destruct (Hids r (or_introl eq_refl)) as (f & Hf & Eg). rewrite Eg in Hls. subst l. exact Eg.
      - intros Hand r d Hr Hd.
        assert (Hnf : named_filters n q w = [r]).
        { pose proof (named_filters_NoDup w rh n q H) as Hnd.
          assert (Hx : forall r', In r' (named_filters n q w) <-> r' = r) by (intros r'; rewrite Hasked; apply Hr).
          destruct (named_filters n q w) as [|a [|b t]].
          - destruct (proj2 (Hx r) eq_refl).
          - f_equal. apply Hx. left. reflexivity.
          - inversion Hnd as [|? ? Hab _]; subst. destruct Hab. left.
            transitivity r; [|symmetry]; apply Hx; cbn; auto. }
        destruct (Hids r) as (f & Hf & Eg); [rewrite Hnf; left; reflexivity|].
        change (w_getIds r (with_heap hp w)) with (w_getIds r w). rewrite Eg. f_equal. symmetry.
        apply (Hone Hand); [rewrite Els, Hnf; cbn [map]; rewrite Eg; reflexivity|].
        destruct (is_empty (snd (load (w_heap w) (hf_set f)))) eqn:Ee; [|reflexivity].
        apply is_empty_spec in Ee. rewrite <- (Hin r d f Hf) in Hd. unfold set_at in Hd. rewrite Ee in Hd. discriminate. }
    clear Hfinds. unfold w_search. fold (qids q).
    destruct q as [i|l0|]; [| |split; [apply Htriv|]; intuition auto];
      (destruct op; [specialize (Hmain ltac:(discriminate) ltac:(discriminate)); unfold h_combine in Hmain; fold ls
                    |specialize (Hmain ltac:(discriminate) ltac:(discriminate)); unfold h_combine in Hmain; fold ls
                    |split; [apply Htriv|]; intuition auto]).
    all: cbn [qids] in ls |- *; fold ls.
    all: try (destruct (h_and_loop None (isort (h_len_le (w_heap w)) ls) (w_heap w)) as [hp1 rs];
              destruct (h_result hp1 rs) as [hp2 r2]; exact Hmain).
    all: destruct (alloc (false, multiunion (map (fun l => snd (load (w_heap w) l)) ls)) (w_heap w)) as [hp1 r1];
         destruct (h_result hp1 (Some r1)) as [hp2 r2]; exact Hmain.
  Qed.

  (** ** Where the set of a filter is *)
  Lemma fclear_place r w r' l : wwf w -> w_getIds r' w = Some l ->
    if eqb r' r then wloose (w_fclear r w) l else w_getIds r' (w_fclear r w) = Some l.
  Proof.
    intros [W1 W2] Hl. unfold w_getIds in Hl. destruct (get (w_filters w) r') as [f'|] eqn:Hf'; [|discriminate].
    injection Hl as <-. unfold w_fclear. destruct (eqb r' r) eqn:Er.
    - apply eqb_eq in Er; subst r'. rewrite Hf'. cbn [alloc]. split.
      + cbn [w_heap next]. apply W1 in Hf'. lia.
      + intros r2 f2. cbn [w_filters]. rewrite get_put. destruct (eqb r2 r) eqn:E2.
        * intros [= <-]. cbn [hf_set]. apply W1 in Hf'. lia.
        * intros Hf2 He. apply eqb_neq in E2. destruct E2. eapply W2; eassumption.
    - destruct (get (w_filters w) r) as [f|] eqn:Hf; [|unfold w_getIds; rewrite Hf'; reflexivity].
      cbn [alloc]. unfold w_getIds; cbn [w_filters]. rewrite get_put, Er, Hf'. reflexivity.
  Qed.
  Lemma clear_loop_place rs w r l : wwf w -> w_getIds r w = Some l ->
    let w' := fold_left (fun w' r' => w_fclear r' w') rs w in
    if inb r rs then wloose w' l else w_getIds r w' = Some l.
  Proof.
    revert w; induction rs as [|r' rs IH]; intros w H Hl; cbn [fold_left inb existsb]; [exact Hl|].
    fold (inb r rs). pose proof (fclear_good r' w H) as G. pose proof (fclear_place r' w r l H Hl) as P.
    destruct (eqb r r'); cbn [orb].
    - destruct (clear_loop rs (w_fclear r' w) (proj1 G)) as ([_ [_ F]] & _). apply F, P.
    - apply IH; [apply G|exact P].
  Qed.

  (** ** One call *)
  Definition python_call o : Prop := match o with WNew p _ _ => p = true | _ => True end.
  Definition same_place w w' rh o : Prop :=
    forall r l, w_getIds r w = Some l ->
      clearings r (o :: rh) = clearings r rh /\ w_getIds r w' = Some l \/
      clearings r (o :: rh) = clearings r rh + 1 /\ wloose w' l.
  Lemma same_filters_place w w' rh o : (forall r, clearings r (o :: rh) = clearings r rh) -> w_filters w' = w_filters w ->
    same_place w w' rh o.
  Proof. intros Hc Hf r l Hl. left. split; [apply Hc|]. unfold w_getIds. rewrite Hf. exact Hl. Qed.
  Lemma index_at_with n m w n' : index_at (with_index n m w) n' = if eqb n' n then m else index_at w n'.
  Proof. unfold index_at. cbn [with_index w_indexes]. rewrite get_put. destruct (eqb n' n); reflexivity. Qed.

  Lemma with_index_good n m w : wwf w -> wgood w (with_index n m w) /\ (forall r, fview (with_index n m w) r = fview w r).
  Proof. intros H. split; [|reflexivity]. split; [exact H|]. split; [cbn; lia|]. auto. Qed.
  Lemma python_all w rh : winv w rh -> forall r f, get (w_filters w) r = Some f -> hf_python f = true.
  Proof. intros H r f Hf. pose proof (i_view _ _ H r) as V. unfold fview in V. rewrite Hf in V. apply V. Qed.

  Lemma step_ok w rh o : winv w rh -> python_call o ->
    winv (fst (w_step eval w o)) (o :: rh) /\ wframe w (fst (w_step eval w o)) /\
    same_place w (fst (w_step eval w o)) rh o /\ snd (w_step eval w o) = outcome o rh.
  Proof.
    intros H Hp. pose proof (i_wf _ _ H) as W. pose proof (i_view _ _ H) as V.
    assert (Hkeep : forall w', wgood w w' -> (forall r, fview w' r = fview w r) -> w_filters w' = w_filters w ->
      w_count w' = w_count w -> w_indexes w' = w_indexes w ->
      (forall r, id_of r (o :: rh) = id_of r rh /\ expr_now r (o :: rh) = expr_now r rh /\
         (forall d, inside eval r d (o :: rh) = inside eval r d rh) /\ clearings r (o :: rh) = clearings r rh) ->
      filters_made (o :: rh) = filters_made rh -> (forall n i, held n i (o :: rh) = held n i rh) ->
      winv w' (o :: rh) /\ wframe w w' /\ same_place w w' rh o).
    { intros w' G V' Ef Ec Ei Hs Hm Hh. split; [|split; [apply G|apply same_filters_place; [apply Hs|exact Ef]]].
      split.
      - apply G.
      - rewrite Ec, Hm. apply (i_count _ _ H).
      - intros r. rewrite V'. destruct (Hs r) as (E1 & E2 & E3 & _). specialize (V r).
        destruct (fview w r) as [[[[b i] e] s]|]; rewrite ?E1, ?E2; [|exact V].
        destruct V as (Vb & Vi & Ve & Vs). repeat split; auto. intros d. rewrite E3. apply Vs.
      - intros n i. unfold index_at. rewrite Ei. rewrite Hh. apply (i_held _ _ H). }
    destruct o as [b i e|r e|r|r d c|r d|n r|n i|n|n|n d c|n d|n q op]; cbn [w_step fst snd outcome].
    - (* WNew *)
      cbn in Hp; subst b.
      change (w_filter true i e w) with (renewed (w_count w) true i e (w_count w + 1) w).
      pose proof (renewed_good (w_count w) true i e (w_count w + 1) w W) as G.
      assert (Hfresh : get (w_filters w) (w_count w) = None).
      { specialize (V (w_count w)). unfold fview in V. destruct (get (w_filters w) (w_count w)) as [f|]; [|reflexivity].
        destruct V as (_ & Vi & _). apply id_of_lt in Vi. rewrite (i_count _ _ H) in Vi. lia. }
      split; [|split; [apply G|split; [|reflexivity]]].
      + split.
        * apply G.
        * cbn [renewed w_count filters_made]. rewrite (i_count _ _ H). reflexivity.
        * intros r. rewrite renewed_view by exact W. cbn [id_of expr_now inside]. rewrite (i_count _ _ H).
          destruct (eqb r (filters_made rh)); [|apply V]. repeat split; auto.
        * intros n' i'. cbn [held]. apply (i_held _ _ H).
      + intros r l Hl. left. split; [reflexivity|]. unfold w_getIds in *. cbn [renewed w_filters]. rewrite get_put.
        destruct (eqb r (w_count w)) eqn:Er; [|exact Hl]. apply eqb_eq in Er; subst. rewrite Hfresh in Hl. discriminate.
    - (* WSetExpr *)
      unfold w_fsetExpression. destruct (get (w_filters w) r) as [f|] eqn:Hf.
      + assert (Hsets : forall r' f', get (w_filters (mkWd (w_heap w) (put r (mkHF (hf_python f) (hf_id f) e (hf_set f)) (w_filters w)) (w_count w) (w_indexes w))) r' = Some f' ->
          exists f0, get (w_filters w) r' = Some f0 /\ hf_set f0 = hf_set f').
        { intros r' f'. cbn [w_filters]. rewrite get_put. destruct (eqb r' r) eqn:Er; [|eauto].
          apply eqb_eq in Er; subst. intros [= <-]. eauto. }
        split; [|split; [|split; [|reflexivity]]].
        * split.
          -- split.
             ++ intros r' f' Hf'. destruct (Hsets _ _ Hf') as (f0 & H0 & <-). apply (proj1 W r' f0 H0).
             ++ intros r1 r2 f1 f2 H1 H2 He. destruct (Hsets _ _ H1) as (g1 & G1 & E1). destruct (Hsets _ _ H2) as (g2 & G2 & E2).
                apply (proj2 W r1 r2 g1 g2 G1 G2). congruence.
          -- apply (i_count _ _ H).
          -- intros r'. specialize (V r'). unfold fview in *. cbn [w_filters]. rewrite get_put. cbn [id_of expr_now inside].
             destruct (eqb r' r) eqn:Er.
             ++ apply eqb_eq in Er; subst. rewrite Hf in V. cbn [hf_python hf_id hf_expr hf_set].
                destruct V as (Vb & Vi & Ve & Vs). rewrite Ve. repeat split; auto.
             ++ exact V.
          -- apply (i_held _ _ H).
        * split; [cbn; lia|]. intros l [Hl Hn]. split; [reflexivity|]. split; [exact Hl|].
          intros r' f' Hf'. destruct (Hsets _ _ Hf') as (f0 & H0 & <-). apply (Hn r' f0 H0).
        * intros r' l Hl. left. split; [reflexivity|]. unfold w_getIds in *. cbn [w_filters]. rewrite get_put.
          destruct (eqb r' r) eqn:Er; [|exact Hl]. apply eqb_eq in Er; subst. rewrite Hf in Hl. exact Hl.
      + assert (Hn : expr_now r rh = None) by (specialize (V r); unfold fview in V; rewrite Hf in V; apply V).
        split; [|split; [apply wframe_refl|split; [apply same_filters_place; reflexivity|reflexivity]]].
        split; [exact W|apply (i_count _ _ H)| |apply (i_held _ _ H)].
        intros r'. cbn [id_of expr_now inside]. destruct (eqb r' r) eqn:Er; [|apply V].
        apply eqb_eq in Er; subst. specialize (V r). rewrite Hn in *. exact V.
    - (* WFClear *)
      pose proof (fclear_good r w W) as G. destruct (fclear_rest r w) as [Ec Ei].
      split; [|split; [apply G|split; [|reflexivity]]].
      + split; [apply G|rewrite Ec; apply (i_count _ _ H)| |].
        * intros r'. rewrite fclear_view by exact W. cbn [id_of expr_now inside]. destruct (eqb r' r); [|apply V].
          specialize (V r'). destruct (fview w r') as [[[[b i] e] s]|]; [|exact V].
          destruct V as (Vb & Vi & Ve & Vs). repeat split; auto.
        * intros n' i'. unfold index_at. rewrite Ei. apply (i_held _ _ H).
      + intros r' l Hl. pose proof (fclear_place r w r' l W Hl) as P. cbn [clearings].
        destruct (eqb r' r); [right|left]; (split; [lia|exact P]).
    - (* WFIndex *)
      destruct (findex_ok d c r w W (python_all _ _ H r)) as (Eo & G & V' & Ef & Ec & Ei).
      split; [|split; [apply G|split; [apply same_filters_place; [reflexivity|exact Ef]|exact Eo]]].
      split; [apply G|rewrite Ec; apply (i_count _ _ H)| |].
      + intros r'. rewrite V'. cbn [id_of expr_now inside]. specialize (V r'). destruct (eqb r' r) eqn:Er.
        * destruct (fview w r') as [[[[b i] e] s]|]; [|exact V]. cbn [index_view].
          destruct V as (Vb & Vi & Ve & Vs). repeat split; auto. intros d'. cbn [andb]. unfold fits_expr. rewrite Ve.
          rewrite <- Vs. destruct (satisfies eval e d c) eqn:Es.
          -- rewrite mem_sadd. destruct (eqb d' d) eqn:Ed; cbn [andb orb]; [|reflexivity].
             apply eqb_eq in Ed; subst. rewrite Es. reflexivity.
          -- destruct (eqb d' d) eqn:Ed; cbn [andb orb]; [|reflexivity].
             apply eqb_eq in Ed; subst. rewrite Es. reflexivity.
        * destruct (fview w r') as [[[[b i] e] s]|]; exact V.
      + intros n' i'. unfold index_at. rewrite Ei. apply (i_held _ _ H).
    - (* WFUnindex *)
      destruct (funindex_ok d r w W) as (G & V' & Ef & Ec & Ei).
      split; [|split; [apply G|split; [apply same_filters_place; [reflexivity|exact Ef]|reflexivity]]].
      split; [apply G|rewrite Ec; apply (i_count _ _ H)| |].
      + intros r'. rewrite V'. cbn [id_of expr_now inside]. specialize (V r'). destruct (eqb r' r) eqn:Er.
        * destruct (fview w r') as [[[[b i] e] s]|]; [|exact V]. cbn [unindex_view].
          destruct V as (Vb & Vi & Ve & Vs). repeat split; auto. intros d'. rewrite mem_srem, <- Vs. cbn [andb].
          destruct (eqb d' d); reflexivity.
        * destruct (fview w r') as [[[[b i] e] s]|]; exact V.
      + intros n' i'. unfold index_at. rewrite Ei. apply (i_held _ _ H).
    - (* WAdd *)
      unfold w_addFilter. destruct (get (w_filters w) r) as [f|] eqn:Hf.
      + destruct (with_index_good n (put (hf_id f) r (index_at w n)) w W) as [G V'].
        assert (Hid : id_of r rh = Some (hf_id f)) by (specialize (V r); unfold fview in V; rewrite Hf in V; apply V).
        split; [|split; [apply G|split; [apply same_filters_place; reflexivity|reflexivity]]].
        split; [apply G|apply (i_count _ _ H)|exact V|].
        intros n' i'. rewrite index_at_with. cbn [held]. rewrite Hid. destruct (eqb n' n) eqn:En; cbn [andb]; [|apply (i_held _ _ H)].
        apply eqb_eq in En; subst. rewrite get_put. destruct (eqb i' (hf_id f)); [reflexivity|apply (i_held _ _ H)].
      + assert (Hid : id_of r rh = None) by (specialize (V r); unfold fview in V; rewrite Hf in V; apply V).
        destruct (Hkeep w) as (K1 & K2 & K3); try reflexivity.
        * apply wgood_refl, W.
        * auto.
        * intros n' i'. cbn [held]. rewrite Hid, Bool.andb_false_r. reflexivity.
        * auto.
    - (* WDel *)
      unfold w_delFilter. rewrite <- (i_held _ _ H). destruct (get (index_at w n) i) as [r|] eqn:Hr; cbn [fst snd].
      + destruct (with_index_good n (del i (index_at w n)) w W) as [G V'].
        split; [|split; [apply G|split; [apply same_filters_place; reflexivity|reflexivity]]].
        split; [apply G|apply (i_count _ _ H)|exact V|].
        intros n' i'. rewrite index_at_with. cbn [held]. destruct (eqb n' n) eqn:En; cbn [andb]; [|apply (i_held _ _ H)].
        apply eqb_eq in En; subst. rewrite get_del. destruct (eqb i' i); [reflexivity|apply (i_held _ _ H)].
      + destruct (Hkeep w) as (K1 & K2 & K3); try reflexivity.
        * apply wgood_refl, W.
        * auto.
        * intros n' i'. cbn [held]. destruct (eqb n' n) eqn:En, (eqb i' i) eqn:Ei; cbn [andb]; try reflexivity.
          apply eqb_eq in En, Ei; subst. rewrite <- (i_held _ _ H). auto.
        * auto.
    - (* WClear *)
      destruct (with_index_good n empty w W) as [G V'].
      split; [|split; [apply G|split; [apply same_filters_place; reflexivity|reflexivity]]].
      split; [apply G|apply (i_count _ _ H)|exact V|].
      intros n' i'. unfold w_clear. rewrite index_at_with. cbn [held]. destruct (eqb n' n); [reflexivity|apply (i_held _ _ H)].
    - (* WClearFilters *)
      destruct (clear_loop (vals (index_at w n)) w W) as (G & V' & Ec & Ei). fold (w_clearFilters n w) in *.
      split; [|split; [apply G|split; [|reflexivity]]].
      + split; [apply G|rewrite Ec; apply (i_count _ _ H)| |].
        * intros r'. rewrite V', (holds_In w rh n r' H). cbn [id_of expr_now inside]. destruct (holds n r' rh); [|apply V].
          specialize (V r'). destruct (fview w r') as [[[[b i] e] s]|]; [|exact V].
          destruct V as (Vb & Vi & Ve & Vs). repeat split; auto.
        * intros n' i'. unfold index_at. rewrite Ei. apply (i_held _ _ H).
      + intros r' l Hl. pose proof (clear_loop_place (vals (index_at w n)) w r' l W Hl) as P. cbn [clearings].
        fold (w_clearFilters n w) in P. cbn zeta in P. rewrite (holds_In w rh n r' H) in P.
        destruct (holds n r' rh); [right|left]; (split; [lia|exact P]).
    - (* WIndex *)
      destruct (index_loop d c (vals (index_at w n)) w W (python_all _ _ H)) as (Eo & G & V' & Ef & Ec & Ei).
      fold (w_index eval n d c w) in *.
      split; [|split; [apply G|split; [apply same_filters_place; [reflexivity|exact Ef]|exact Eo]]].
      split; [apply G|rewrite Ec; apply (i_count _ _ H)| |].
      + intros r'. rewrite V', (holds_In w rh n r' H). cbn [id_of expr_now inside]. specialize (V r'). destruct (holds n r' rh) eqn:Er.
        * destruct (fview w r') as [[[[b i] e] s]|]; [|exact V]. cbn [index_view].
          destruct V as (Vb & Vi & Ve & Vs). repeat split; auto. intros d'. cbn [andb]. unfold fits_expr. rewrite Ve.
          rewrite <- Vs. destruct (satisfies eval e d c) eqn:Es.
          -- rewrite mem_sadd. destruct (eqb d' d) eqn:Ed; cbn [andb orb]; [|reflexivity].
             apply eqb_eq in Ed; subst. rewrite Es. reflexivity.
          -- destruct (eqb d' d) eqn:Ed; cbn [andb orb]; [|reflexivity].
             apply eqb_eq in Ed; subst. rewrite Es. reflexivity.
        * destruct (fview w r') as [[[[b i] e] s]|]; exact V.
      + intros n' i'. unfold index_at. rewrite Ei. apply (i_held _ _ H).
    - (* WUnindex *)
      destruct (unindex_loop d (vals (index_at w n)) w W) as (G & V' & Ef & Ec & Ei). fold (w_unindex n d w) in *.
      split; [|split; [apply G|split; [apply same_filters_place; [reflexivity|exact Ef]|reflexivity]]].
      split; [apply G|rewrite Ec; apply (i_count _ _ H)| |].
      + intros r'. rewrite V', (holds_In w rh n r' H). cbn [id_of expr_now inside]. specialize (V r'). destruct (holds n r' rh) eqn:Er.
        * destruct (fview w r') as [[[[b i] e] s]|]; [|exact V]. cbn [unindex_view].
          destruct V as (Vb & Vi & Ve & Vs). repeat split; auto. intros d'. rewrite mem_srem, <- Vs. cbn [andb].
          destruct (eqb d' d); reflexivity.
        * destruct (fview w r') as [[[[b i] e] s]|]; exact V.
      + intros n' i'. unfold index_at. rewrite Ei. apply (i_held _ _ H).
    - (* WSearch *)
      pose proof (search_ok n q op w rh H) as S. destruct (w_search n q op w) as [w' out] eqn:Ew. cbn [fst snd].
      destruct S as (G & V' & Ef & Ec & Ei & S).
      destruct (Hkeep w' G V' Ef Ec Ei) as (K1 & K2 & K3); try reflexivity.
      { auto. }
      split; [exact K1|]. split; [exact K2|]. split; [exact K3|].
      destruct out as [l|x]; cbn [rmap].
      + destruct S as (Hq & Hop & _). destruct q, op; try contradiction; reflexivity.
      + destruct S as [-> [->| ->]]; [reflexivity|]. destruct q; reflexivity.
  Qed.

  Lemma winv_new : winv w_new [].
  Proof.
    split; [split| | |].
    - intros r f. cbn. discriminate.
    - intros r r' f f'. cbn. discriminate.
    - reflexivity.
    - intros r. cbn. auto.
    - intros n i. reflexivity.
  Qed.
  Lemma exec_ok h2 w rh : winv w rh -> (forall o, In o h2 -> python_call o) ->
    winv (w_exec eval h2 w) (rev h2 ++ rh) /\ wframe w (w_exec eval h2 w) /\
    (forall r l, w_getIds r w = Some l ->
      clearings r (rev h2 ++ rh) = clearings r rh /\ w_getIds r (w_exec eval h2 w) = Some l \/
      clearings r rh < clearings r (rev h2 ++ rh) /\ wloose (w_exec eval h2 w) l).
  Proof.
    revert w rh; induction h2 as [|o h2 IH]; intros w rh H Hp.
    - cbn. split; [exact H|]. split; [apply wframe_refl|]. intros r l Hl. left. auto.
    - destruct (step_ok w rh o H (Hp o (or_introl eq_refl))) as (H1 & F1 & P1 & _).
      change (w_exec eval (o :: h2) w) with (w_exec eval h2 (fst (w_step eval w o))).
      destruct (IH (fst (w_step eval w o)) (o :: rh) H1) as (H2 & F2 & P2).
      { intros o' Ho'. apply Hp. right. exact Ho'. }
      cbn [rev]. rewrite <- app_assoc. cbn [app].
      split; [exact H2|]. split; [eapply wframe_trans; eassumption|].
      assert (Hmono : forall r, clearings r (o :: rh) <= clearings r (rev h2 ++ o :: rh)).
      { intros r. generalize (rev h2). intros l. induction l as [|x l IHl]; cbn [app]; [lia|].
        eapply Z.le_trans; [exact IHl|]. destruct x; cbn [clearings]; try lia.
        - destruct (eqb r r0); lia.
        - destruct (holds n r (l ++ o :: rh)); lia. }
      intros r l Hl. destruct (P1 r l Hl) as [[Ec Hl1]|[Ec Hl1]].
      + destruct (P2 r l Hl1) as [[Ec2 Hl2]|[Ec2 Hl2]]; [left|right]; split; auto; lia.
      + right. split; [specialize (Hmono r); lia|]. apply F2, Hl1.
  Qed.
  Lemma python_calls h : python_filters h -> forall o, In o h -> python_call o.
  Proof. intros Hp o Ho. destruct o as [p i e| | | | | | | | | | |]; cbn; auto. eapply Hp, Ho. Qed.
  Lemma run_inv h : python_filters h -> winv (w_run eval h) (rev h).
  Proof.
    intros Hp. destruct (exec_ok h w_new [] winv_new (python_calls h Hp)) as (H & _). rewrite app_nil_r in H. exact H.
  Qed.

  (** ** The theorems *)
  Lemma theap_contents h r : python_filters h ->
    match w_getIds r (w_run eval h) with
    | Some l => id_of r (rev h) <> None /\ forall d, mem d (set_at (w_run eval h) l) = inside eval r d (rev h)
    | None => id_of r (rev h) = None
    end.
  Proof.
    intros Hp. pose proof (i_view _ _ (run_inv h Hp) r) as V. unfold fview in V. unfold w_getIds.
    destruct (get (w_filters (w_run eval h)) r) as [f|]; [|apply V].
    destruct V as (_ & Vi & _ & Vs). split; [congruence|exact Vs].
  Qed.
  Lemma theap_results h o : python_filters (h ++ [o]) ->
    snd (w_step eval (w_run eval h) o) = outcome o (rev h).
  Proof.
    intros Hp. apply step_ok.
    - apply run_inv. intros p i e Hi. eapply Hp. apply in_or_app. left. exact Hi.
    - apply (python_calls _ Hp). apply in_or_app. right. left. reflexivity.
  Qed.
  Lemma theap_search h n q op : python_filters h -> q <> TOther -> op <> OpOther ->
    exists s, answer eval h n q op = Ok s /\ forall d, mem d s = true <-> finds eval n q op d (rev h).
  Proof.
    intros Hp Hq Hop. pose proof (search_ok n q op _ _ (run_inv h Hp)) as S. unfold answer, result.
    destruct (w_search n q op (w_run eval h)) as [w [l|x]]; cbn [fst snd rmap].
    - eexists. split; [reflexivity|]. apply S.
    - destruct S as (_ & _ & _ & _ & _ & _ & [?|?]); contradiction.
  Qed.
  Lemma theap_search_errors h n q op : q = TOther \/ op = OpOther -> answer eval h n q op = Raise TypeError.
  Proof. unfold answer, result. intros [->| ->]; [reflexivity|]. destruct q; reflexivity. Qed.
  Lemma run_app h h2 : w_run eval (h ++ h2) = w_exec eval h2 (w_run eval h).
  Proof. apply fold_left_app. Qed.
  Lemma run_search h n q op h2 : w_run eval (h ++ WSearch n q op :: h2) = w_exec eval h2 (fst (w_search n q op (w_run eval h))).
  Proof.
    rewrite run_app. unfold w_exec; cbn [fold_left w_step]. destruct (w_search n q op (w_run eval h)); reflexivity.
  Qed.
  Lemma search_inv h n q op l : python_filters h -> result eval h n q op = Ok l ->
    let w := w_run eval (h ++ [WSearch n q op]) in
    winv w (WSearch n q op :: rev h) /\
    (wloose w l \/ op = OpAnd /\ exists r, only n q r h /\ w_getIds r w = Some l) /\
    (op = OpAnd -> forall r d, only n q r h -> inside eval r d (rev h) = true -> w_getIds r w = Some l).
  Proof.
    intros Hp Es. rewrite run_search. cbn [w_exec fold_left].
    pose proof (search_ok n q op _ _ (run_inv h Hp)) as S.
    destruct (step_ok _ _ (WSearch n q op) (run_inv h Hp) Logic.I) as (K & _). cbn [w_step] in K. unfold result in Es.
    destruct (w_search n q op (w_run eval h)) as [w out]; cbn [fst snd] in *. subst out. split; [exact K|].
    destruct S as (_ & _ & _ & _ & _ & _ & _ & _ & S1 & S2). auto.
  Qed.
  Lemma python_l h h2 : python_filters (h ++ h2) -> python_filters h.
  Proof. intros Hp p i e Hi. eapply Hp, in_or_app. left. exact Hi. Qed.
  Lemma python_r h h2 : python_filters (h ++ h2) -> python_filters h2.
  Proof. intros Hp p i e Hi. eapply Hp, in_or_app. right. exact Hi. Qed.
  Lemma python_cons o h : python_filters (o :: h) -> python_filters h.
  Proof. intros Hp p i e Hi. eapply Hp. right. exact Hi. Qed.
  Lemma run_search_exec h n q op h2 :
    w_run eval (h ++ WSearch n q op :: h2) = w_exec eval h2 (w_run eval (h ++ [WSearch n q op])).
  Proof. rewrite !run_search. reflexivity. Qed.
  Lemma rev_search h n q op h2 : rev (h ++ WSearch n q op :: h2) = rev h2 ++ WSearch n q op :: rev h.
  Proof. rewrite rev_app_distr. cbn [rev]. rewrite <- app_assoc. reflexivity. Qed.

  Lemma theap_snapshots h n q op l h2 : python_filters (h ++ h2) -> result eval h n q op = Ok l ->
    (op <> OpAnd \/ ~ exists r, only n q r h) ->
    seen eval (h ++ WSearch n q op :: h2) l = seen eval (h ++ [WSearch n q op]) l.
  Proof.
    intros Hp Es Hlive. unfold seen. rewrite run_search_exec.
    destruct (search_inv h n q op l (python_l _ _ Hp) Es) as (K & S1 & _).
    destruct (exec_ok h2 _ _ K (python_calls h2 (python_r _ _ Hp))) as (_ & F & _).
    destruct S1 as [S1|[Ho (r & Hr & _)]]; [apply F, S1|].
    destruct Hlive as [Hl|Hl]; [contradiction|]. destruct Hl. eauto.
  Qed.
  Lemma theap_live h n q l h2 r d : python_filters (h ++ h2) -> result eval h n q OpAnd = Ok l ->
    only n q r h -> inside eval r d (rev h) = true ->
    clearings r (rev (h ++ WSearch n q OpAnd :: h2)) = clearings r (rev h) ->
    w_getIds r (w_run eval (h ++ WSearch n q OpAnd :: h2)) = Some l /\
    forall d', mem d' (seen eval (h ++ WSearch n q OpAnd :: h2) l) = inside eval r d' (rev (h ++ WSearch n q OpAnd :: h2)).
  Proof.
    intros Hp Es Hr Hd Hc.
    assert (Hp' : python_filters (h ++ WSearch n q OpAnd :: h2)).
    { intros p i e Hi. apply in_app_or in Hi as [Hi|[Hi|Hi]]; [|discriminate|]; eapply Hp, in_or_app; eauto. }
    assert (Hl : w_getIds r (w_run eval (h ++ WSearch n q OpAnd :: h2)) = Some l).
    { destruct (search_inv h n q OpAnd l (python_l _ _ Hp) Es) as (K & _ & S2).
      specialize (S2 eq_refl r d Hr Hd).
      destruct (exec_ok h2 _ _ K (python_calls h2 (python_r _ _ Hp))) as (_ & _ & P).
      rewrite run_search_exec. rewrite rev_search in Hc.
      destruct (P r l S2) as [[_ Hl]|[Hlt _]]; [exact Hl|exfalso]. cbn [clearings] in Hlt. lia. }
    split; [exact Hl|]. pose proof (theap_contents _ r Hp') as X. rewrite Hl in X. apply X.
  Qed.
  Lemma theap_cleared h n q l h2 h3 r d : python_filters (h ++ h2 ++ h3) -> result eval h n q OpAnd = Ok l ->
    only n q r h -> inside eval r d (rev h) = true ->
    clearings r (rev (h ++ WSearch n q OpAnd :: h2)) <> clearings r (rev h) ->
    seen eval (h ++ WSearch n q OpAnd :: h2 ++ h3) l = seen eval (h ++ WSearch n q OpAnd :: h2) l.
  Proof.
    intros Hp Es Hr Hd Hc.
    destruct (search_inv h n q OpAnd l (python_l _ _ Hp) Es) as (K & _ & S2).
    specialize (S2 eq_refl r d Hr Hd).
    destruct (exec_ok h2 _ _ K (python_calls h2 (python_l _ _ (python_r _ _ Hp)))) as (K2 & _ & P).
    unfold seen. rewrite (run_search_exec h n q OpAnd (h2 ++ h3)), (run_search_exec h n q OpAnd h2).
    unfold w_exec at 1. rewrite fold_left_app. fold (w_exec eval h2 (w_run eval (h ++ [WSearch n q OpAnd]))).
    rewrite rev_search in Hc.
    destruct (P r l S2) as [[He _]|[_ Hl]]; [cbn [clearings] in He; congruence|].
    destruct (exec_ok h3 _ _ K2 (python_calls h3 (python_r _ _ (python_r _ _ Hp)))) as (_ & F & _).
    apply F, Hl.
  Qed.

  (** ** The caller changes a result *)
  Lemma assign_inv l s w rh : winv w rh -> wloose w l -> winv (w_assign l s w) rh.
  Proof.
    intros H [Hl Hn]. destruct (i_wf _ _ H) as [W1 W2].
    split; [split; [exact W1|exact W2]|apply (i_count _ _ H)| |apply (i_held _ _ H)].
    intros r. pose proof (i_view _ _ H r) as V. unfold fview in *. change (w_filters (w_assign l s w)) with (w_filters w).
    destruct (get (w_filters w) r) as [f|] eqn:Hf; [|exact V].
    change (set_at (w_assign l s w) (hf_set f)) with (set_at (stored l s w) (hf_set f)). rewrite set_stored.
    assert (El : eqb (hf_set f) l = false) by (apply eqb_neq, (Hn r f Hf)). rewrite El. exact V.
  Qed.
  Lemma theap_caller h n q op l s h2 : python_filters (h ++ h2) -> result eval h n q op = Ok l ->
    (op <> OpAnd \/ ~ exists r, only n q r h) ->
    forall n' q' op', let w := w_exec eval h2 (w_assign l s (w_run eval (h ++ [WSearch n q op]))) in
    rmap (set_at (fst (w_search n' q' op' w))) (snd (w_search n' q' op' w)) = answer eval (h ++ WSearch n q op :: h2) n' q' op'.
  Proof.
    intros Hp Es Hlive n' q' op' w.
    destruct (search_inv h n q op l (python_l _ _ Hp) Es) as (K & S1 & _).
    assert (Hl : wloose (w_run eval (h ++ [WSearch n q op])) l).
    { destruct S1 as [S1|[Ho (r & Hr & _)]]; [exact S1|]. destruct Hlive as [Hl|Hl]; [contradiction|]. destruct Hl. eauto. }
    pose proof (assign_inv l s _ _ K Hl) as K'.
    destruct (exec_ok h2 _ _ K' (python_calls h2 (python_r _ _ Hp))) as (K2 & _). fold w in K2.
    destruct (exec_ok h2 _ _ K (python_calls h2 (python_r _ _ Hp))) as (K3 & _).
    unfold answer, result. rewrite run_search_exec.
    pose proof (search_ok n' q' op' _ _ K2) as A. pose proof (search_ok n' q' op' _ _ K3) as B.
    destruct (w_search n' q' op' w) as [wa [la|xa]], (w_search n' q' op' (w_exec eval h2 (w_run eval (h ++ [WSearch n q op])))) as [wb [lb|xb]];
      destruct A as (_ & _ & _ & _ & _ & A), B as (_ & _ & _ & _ & _ & B); cbn [fst snd rmap].
    - f_equal. apply sset_ext. intros d. apply Bool.eq_iff_eq_true. destruct A as (_ & _ & A & _), B as (_ & _ & B & _).
      rewrite A, B. reflexivity.
    - destruct A as (? & ? & _), B as [_ [?|?]]; contradiction.
    - destruct B as (? & ? & _), A as [_ [?|?]]; contradiction.
    - destruct A as [-> _], B as [-> _]. reflexivity.
  Qed.

  (** ** Calls elsewhere *)
  Lemma holds_held n r rh : holds n r rh = true <-> exists i, held n i rh = Some r.
  Proof.
    unfold holds. split.
    - destruct (id_of r rh) as [i|]; [|discriminate]. destruct (held n i rh) as [r'|] eqn:Eh; [|discriminate].
      intros Er. apply eqb_eq in Er; subst. eauto.
    - intros [i Hi]. rewrite (held_id _ _ _ _ Hi), Hi. apply eqb_refl.
  Qed.
  Lemma elsewhere_spec n o h : elsewhere n o h ->
    (forall i, held n i (o :: rev h) = held n i (rev h)) /\
    (forall r d, holds n r (rev h) = true -> inside eval r d (o :: rev h) = inside eval r d (rev h)).
  Proof.
    assert (Hne : forall m : Z, m <> n -> eqb n m = false) by (intros m Hm; apply eqb_neq; auto).
    assert (Hr : forall r r' : Z, holds n r (rev h) = true -> holds n r' (rev h) = false -> eqb r r' = false).
    { intros r r' H1 H2. apply eqb_neq. intros ->. congruence. }
    destruct o as [b i e|r e|r|r d c|r d|m r|m i|m|m|m d c|m d|m q op]; cbn [elsewhere held inside]; intros H.
    - split; [reflexivity|]. intros r d Hh. apply holds_held in Hh as [j Hj]. apply held_id, id_of_lt in Hj.
      assert (Er : eqb r (filters_made (rev h)) = false) by (apply eqb_neq; lia). rewrite Er. reflexivity.
    - split; reflexivity.
    - split; [reflexivity|]. intros r' d Hh. rewrite (Hr r' r Hh H). reflexivity.
    - split; [reflexivity|]. intros r' d' Hh. rewrite (Hr r' r Hh H). reflexivity.
    - split; [reflexivity|]. intros r' d' Hh. rewrite (Hr r' r Hh H). reflexivity.
    - rewrite (Hne m H). split; reflexivity.
    - rewrite (Hne m H). split; reflexivity.
    - rewrite (Hne m H). split; reflexivity.
    - split; [reflexivity|]. intros r d Hh. destruct (holds m r (rev h)) eqn:Em; [|reflexivity].
      apply (proj2 H) in Em. congruence.
    - split; [reflexivity|]. intros r d' Hh. destruct (holds m r (rev h)) eqn:Em; [|reflexivity].
      apply (proj2 H) in Em. congruence.
    - split; [reflexivity|]. intros r d' Hh. destruct (holds m r (rev h)) eqn:Em; [|reflexivity].
      apply (proj2 H) in Em. congruence.
    - split; reflexivity.
  Qed.
  Lemma answers_eq h h' n q op : python_filters h -> python_filters h' ->
    (forall d, finds eval n q op d (rev h) <-> finds eval n q op d (rev h')) -> answer eval h n q op = answer eval h' n q op.
  Proof.
    intros Hp Hp' Hf.
    assert (Hcase : (q = TOther \/ op = OpOther) \/ (q <> TOther /\ op <> OpOther)).
    { destruct q, op; try (left; tauto); right; split; discriminate. }
    destruct Hcase as [Hc|[Hq Hop]]; [rewrite !theap_search_errors by exact Hc; reflexivity|].
    destruct (theap_search h n q op Hp Hq Hop) as (s & -> & Hs).
    destruct (theap_search h' n q op Hp' Hq Hop) as (s' & -> & Hs').
    f_equal. apply sset_ext. intros d. apply Bool.eq_iff_eq_true. rewrite Hs, Hs'. apply Hf.
  Qed.
  Lemma theap_elsewhere h o n q op : python_filters (h ++ [o]) -> elsewhere n o h ->
    answer eval (h ++ [o]) n q op = answer eval h n q op.
  Proof.
    intros Hp He. apply answers_eq; [exact Hp|apply (python_l _ _ Hp)|]. intros d. rewrite rev_app_distr. cbn [rev app].
    destruct (elsewhere_spec n o h He) as [Hh Hi].
    assert (Ha : forall r, asked_for n q r (o :: rev h) <-> asked_for n q r (rev h)).
    { intros r. unfold asked_for. split; intros (i & Hn & Hr); exists i; (split; [exact Hn|]); rewrite Hh in *; exact Hr. }
    assert (Hin : forall r, asked_for n q r (rev h) -> inside eval r d (o :: rev h) = inside eval r d (rev h)).
    { intros r (i & _ & Hr). apply Hi, holds_held. eauto. }
    destruct op; cbn [finds]; [| |reflexivity].
    - split; intros [[r Hr] Hall]; (split; [exists r; apply Ha, Hr|]); intros r' Hr'.
      + rewrite <- Hin by exact Hr'. apply Hall, Ha, Hr'.
      + apply Ha in Hr'. rewrite Hin by exact Hr'. apply Hall, Hr'.
    - split; intros (r & Hr & Hd); exists r.
      + apply Ha in Hr. split; [exact Hr|]. rewrite <- Hin by exact Hr. exact Hd.
      + split; [apply Ha, Hr|]. rewrite Hin by exact Hr. exact Hd.
  Qed.

  (** ** One index whose filters are its own *)
  Lemma expr_some r rh i : id_of r rh = Some i -> exists e, expr_now r rh = Some e.
  Proof.
    induction rh as [|[b i' e|r' e|r'|r' d c|r' d|m r'|m i'|m|m|m d c|m d|m q op] rh IH]; cbn [id_of expr_now]; auto.
    - discriminate.
    - destruct (eqb r (filters_made rh)); eauto.
    - intros H. destruct (IH H) as [e' He]. destruct (eqb r r'); rewrite He; eauto.
  Qed.
  Lemma embed_spec (trh : list (top I E C)) : new_filters trh -> forall i,
    expr_of i trh = match held 0 i (embed trh) with Some r => expr_now r (embed trh) | None => None end /\
    forall d, selected eval i d trh = match held 0 i (embed trh) with Some r => inside eval r d (embed trh) | None => false end.
  Proof.
    assert (Hold : forall i r rh, held 0 i rh = Some r -> eqb r (filters_made rh) = false).
    { intros i r rh H. apply eqb_neq. apply held_id, id_of_lt in H. lia. }
    assert (Hh : forall i r rh, held 0 i rh = Some r -> holds 0 r rh = true).
    { intros i r rh H. apply holds_held. eauto. }
    induction trh as [|o trh IH]; intros Hnew i.
    - split; reflexivity.
    - assert (IH' := IH (fun (f : filt I E) Hf => Hnew f (or_intror Hf))). clear IH.
      destruct o as [f|i'| | |i' e|d' c|d']; cbn [embed expr_of selected].
      + cbn [held id_of expr_now inside]. rewrite !eqb_refl. cbn [andb].
        destruct (eqb i (f_id f)).
        * cbn [expr_now inside]. rewrite eqb_refl. split; [reflexivity|]. intros d. rewrite (Hnew f (or_introl eq_refl)). reflexivity.
        * destruct (IH' i) as [-> Hs]. destruct (held 0 i (embed trh)) as [r|] eqn:Er.
          -- rewrite (Hold i r _ Er). split; [reflexivity|exact Hs].
          -- split; [reflexivity|exact Hs].
      + cbn [held]. rewrite eqb_refl. cbn [andb]. destruct (eqb i i'); [split; reflexivity|].
        cbn [expr_now inside]. apply IH'.
      + cbn [held]. rewrite eqb_refl. split; reflexivity.
      + cbn [held expr_now inside]. split; [apply IH'|]. intros d.
        destruct (held 0 i (embed trh)) as [r|] eqn:Er; [|reflexivity]. rewrite (Hh i r _ Er). reflexivity.
      + destruct (held 0 i' (embed trh)) as [r'|] eqn:Er'.
        * cbn [held expr_now inside]. destruct (IH' i) as [Ei Hs]. split; [|exact Hs].
          destruct (eqb i i') eqn:Ee.
          -- apply eqb_eq in Ee; subst. rewrite Er' in *. rewrite eqb_refl, Ei. reflexivity.
          -- rewrite Ei. destruct (held 0 i (embed trh)) as [r|] eqn:Er; [|reflexivity].
             assert (Err : eqb r r' = false).
             { apply eqb_neq. intros ->. apply held_id in Er, Er'. apply eqb_neq in Ee. congruence. }
             rewrite Err. reflexivity.
        * destruct (IH' i) as [Ei Hs]. split; [|exact Hs].
          destruct (eqb i i') eqn:Ee; [|exact Ei]. apply eqb_eq in Ee; subst. rewrite Ei, Er'. reflexivity.
      + cbn [held expr_now inside]. destruct (IH' i) as [Ei Hs]. split; [exact Ei|]. intros d. rewrite Ei, Hs.
        destruct (held 0 i (embed trh)) as [r|] eqn:Er; [|rewrite Bool.andb_false_r; reflexivity].
        rewrite (Hh i r _ Er). reflexivity.
      + cbn [held expr_now inside]. destruct (IH' i) as [Ei Hs]. split; [exact Ei|]. intros d. rewrite Hs.
        destruct (held 0 i (embed trh)) as [r|] eqn:Er; [|destruct (eqb d d'); reflexivity].
        rewrite (Hh i r _ Er). reflexivity.
  Qed.
  Lemma embed_python (th : list (top I E C)) : python_only th -> python_filters (rev (embed (rev th))).
  Proof.
    intros Hp p i e Hi. apply in_rev in Hi.
    assert (Hp' : forall f : filt I E, In (TAdd f) (rev th) -> f_python f = true) by (intros f Hf; apply Hp; rewrite in_rev; exact Hf).
    clear Hp. induction (rev th) as [|o l IH]; [destruct Hi|].
    destruct o as [f|i'| | |i' e'|d c|d]; cbn [embed] in Hi.
    - destruct Hi as [Hi|[Hi|Hi]]; [discriminate| |].
      + inversion Hi; subst. apply Hp'. left. reflexivity.
      + apply IH; [exact Hi|]. intros g Hg. apply Hp'. right. exact Hg.
    - destruct Hi as [Hi|Hi]; [discriminate|]. apply IH; [exact Hi|]. intros g Hg. apply Hp'. right. exact Hg.
    - destruct Hi as [Hi|Hi]; [discriminate|]. apply IH; [exact Hi|]. intros g Hg. apply Hp'. right. exact Hg.
    - destruct Hi as [Hi|Hi]; [discriminate|]. apply IH; [exact Hi|]. intros g Hg. apply Hp'. right. exact Hg.
    - assert (Hi' : In (WNew p i e) (embed l)).
      { destruct (held 0 i' (embed l)); [|exact Hi]. destruct Hi as [Hi|Hi]; [discriminate|exact Hi]. }
      apply IH; [exact Hi'|]. intros g Hg. apply Hp'. right. exact Hg.
    - destruct Hi as [Hi|Hi]; [discriminate|]. apply IH; [exact Hi|]. intros g Hg. apply Hp'. right. exact Hg.
    - destruct Hi as [Hi|Hi]; [discriminate|]. apply IH; [exact Hi|]. intros g Hg. apply Hp'. right. exact Hg.
  Qed.
  Lemma theap_value (th : list (top I E C)) q op : python_only th -> new_filters th ->
    answer eval (rev (embed (rev th))) 0 q op = t_search q op (t_run eval th).
  Proof.
    intros Hp Hn. pose proof (embed_python th Hp) as Hp'.
    assert (Hn' : new_filters (rev th)) by (intros f Hf; apply Hn; rewrite in_rev; exact Hf).
    pose proof (embed_spec (rev th) Hn') as X.
    assert (Hcase : (q = TOther \/ op = OpOther) \/ (q <> TOther /\ op <> OpOther)).
    { destruct q, op; try (left; tauto); right; split; discriminate. }
    destruct Hcase as [Hc|[Hq Hop]].
    { rewrite theap_search_errors by exact Hc. symmetry. destruct Hc as [->| ->]; [reflexivity|destruct q; reflexivity]. }
    destruct (theap_search _ 0 q op Hp' Hq Hop) as (s & -> & Hs). rewrite rev_involutive in Hs.
    assert (Hget : forall i, match get (t_run eval th) i with
      | Some f => exists r, held 0 i (embed (rev th)) = Some r /\ forall d, mem d (f_ids f) = inside eval r d (embed (rev th))
      | None => held 0 i (embed (rev th)) = None end).
    { intros i. pose proof (filter_contents eval th i Hp) as F. destruct (X i) as [Xe Xs].
      destruct (get (t_run eval th) i) as [f|].
      - destruct F as (_ & Fe & Fs). destruct (held 0 i (embed (rev th))) as [r|] eqn:Er; [|congruence].
        exists r. split; [reflexivity|]. intros d. rewrite Fs. apply Xs.
      - destruct (held 0 i (embed (rev th))) as [r|] eqn:Er; [|reflexivity].
        apply held_id, expr_some in Er as [e He]. congruence. }
    destruct op; [| |contradiction].
    - destruct (t_search_and q (t_run eval th) Hq) as (s' & -> & Hs'). f_equal. apply sset_ext. intros d.
      apply Bool.eq_iff_eq_true. rewrite Hs, Hs'. cbn [finds]. unfold asked_for. split.
      + intros [(r & i & Hi & Hr) Hall]. split.
        * exists i. specialize (Hget i). destruct (get (t_run eval th) i) as [f|]; [eauto|congruence].
        * intros j f Hj Hf. specialize (Hget j). rewrite Hf in Hget. destruct Hget as (r' & Hr' & Hd). rewrite Hd. apply Hall. eauto.
      + intros [(i & f & Hi & Hf) Hall]. split.
        * specialize (Hget i). rewrite Hf in Hget. destruct Hget as (r & Hr & _). eauto.
        * intros r (j & Hj & Hr). specialize (Hget j). destruct (get (t_run eval th) j) as [g|] eqn:Eg; [|congruence].
          destruct Hget as (r' & Hr' & Hd). replace r with r' by congruence. rewrite <- Hd. eapply Hall; eassumption.
    - destruct (t_search_or q (t_run eval th) Hq) as (s' & -> & Hs'). f_equal. apply sset_ext. intros d.
      apply Bool.eq_iff_eq_true. rewrite Hs, Hs'. cbn [finds]. unfold asked_for. split.
      + intros (r & (i & Hi & Hr) & Hd). specialize (Hget i). destruct (get (t_run eval th) i) as [f|] eqn:Ef; [|congruence].
        destruct Hget as (r' & Hr' & Hd'). exists i, f. rewrite Hd'. replace r' with r by congruence. auto.
      + intros (i & f & Hi & Hf & Hd). specialize (Hget i). rewrite Hf in Hget. destruct Hget as (r & Hr & Hd').
        exists r. split; [eauto|]. rewrite <- Hd'. exact Hd.
  Qed.
End L.
