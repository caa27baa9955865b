(** * Lemmas: answers of a field index are the caller's own *)
From Verif Require Import L_ptext L_pindex S_fheap M_fheap M_pindex M_field SMap PyVal Ord.

Lemma filter_map_keys {K A B} (f : K -> bool) (g : A -> B) (l : list (K * A)) :
  map snd (filter (fun kv => f (fst kv)) (map (fun kv => (fst kv, g (snd kv))) l)) = map g (map snd (filter (fun kv => f (fst kv)) l)).
Proof. induction l as [|[k a] l IH]; [reflexivity|]. cbn [map filter fst snd]. destruct (f k); cbn [map snd]; rewrite IH; reflexivity. Qed.
Lemma nth_change {A} k (f : A -> A) (l : list A) x : nth_error l k = Some x -> change_nth k f l = firstn k l ++ f x :: skipn (S k) l.
Proof. revert k. induction l as [|y l IH]; intros [|k] E; try discriminate; cbn in *; [injection E as ->; reflexivity|]. rewrite (IH _ E). reflexivity. Qed.
Lemma nth_change_none {A} k (f : A -> A) (l : list A) : nth_error l k = None -> change_nth k f l = l.
Proof. revert k. induction l as [|y l IH]; intros [|k] E; try discriminate; cbn in *; [reflexivity|reflexivity|]. rewrite (IH _ E). reflexivity. Qed.
Lemma nth_split_at {A} k (l : list A) x : nth_error l k = Some x -> l = firstn k l ++ x :: skipn (S k) l.
Proof. revert k. induction l as [|y l IH]; intros [|k] E; try discriminate; cbn in *; [injection E as ->; reflexivity|]. f_equal. exact (IH _ E). Qed.

Lemma NoDup_snoc {A} (l : list A) x : NoDup l -> ~ In x l -> NoDup (l ++ [x]).
Proof.
  induction l as [|y l IH]; intros Hn Hx; cbn; [constructor; [intros []|constructor]|]. inversion Hn as [|? ? H1 H2]. subst. constructor.
  - intros H. apply in_app_or in H as [H|[<-|[]]]; [exact (H1 H)|]. apply Hx. left. reflexivity.
  - apply IH; [exact H2|]. intros H. apply Hx. right. exact H.
Qed.

Section FHeapL.
  Context {T : Type} `{OT : Ord T}.
  Notation pyval := (pyval T).
  Notation pst := (ist pyval (sset Z) pyval).
  Notation lv := (lv (empty : sset Z)).
  Implicit Type st : pst.

  Lemma bt_range_mmap {A B} (g : A -> B) (m : smap pyval A) lo hi :
    bt_range (mmap (fun _ => g) m) lo hi = match bt_range m lo hi with Ok l => Ok (map g l) | Raise e => Raise e end.
  Proof.
    unfold bt_range. rewrite keys_mmap.
    assert (E : is_empty (mmap (fun _ : pyval => g) m) = is_empty m) by (unfold is_empty, mmap; cbn [elts]; destruct (elts m); reflexivity).
    rewrite E. destruct (is_empty m); [reflexivity|]. destruct (negb _); [reflexivity|]. destruct (negb _); [reflexivity|]. destruct (negb _); [reflexivity|].
    f_equal. unfold vals, sfilter, mmap. cbn [elts].
    apply (filter_map_keys (fun k => (is_none lo || leb lo k) && (is_none hi || leb k hi)) g).
  Qed.

  (** ** Sets that the index does not refer to *)
  Definition loose (r : Z) st : Prop := forall k, get (live (ip_fwd (i_parts st))) k <> Some r.
  Definition frame st st' : Prop :=
    i_fresh st <= i_fresh st' /\
    forall r, r < i_fresh st -> loose r st -> loose r st' /\ get (live (i_sets st')) r = get (live (i_sets st)) r.
  Lemma frame_refl st : frame st st.
  Proof. split; [lia|]. auto. Qed.
  Lemma frame_trans st st1 st2 : frame st st1 -> frame st1 st2 -> frame st st2.
  Proof.
    intros [A1 A2] [B1 B2]. split; [lia|]. intros r Hr Hl. destruct (A2 r Hr Hl) as [C1 C2]. destruct (B2 r ltac:(lia) C1) as [D1 D2].
    split; [exact D1|congruence].
  Qed.
  Lemma frame_del_rev d st : frame st (i_del_rev d st).
  Proof. split; [cbn; lia|]. intros r _ H. split; [exact H|reflexivity]. Qed.
  Lemma frame_put_rev d x st : frame st (i_put_rev d x st).
  Proof. split; [cbn; lia|]. intros r _ H. split; [exact H|reflexivity]. Qed.
  Lemma frame_change n st : frame st (i_change n st).
  Proof. split; [cbn; lia|]. intros r _ H. split; [exact H|reflexivity]. Qed.
  Lemma frame_clear st : frame st (i_clear st).
  Proof. split; [cbn; lia|]. intros r _ H. split; [|reflexivity]. intros k E. discriminate E. Qed.
  Lemma frame_drop k st : frame st (i_drop k st).
  Proof.
    split; [cbn; lia|]. intros r _ H. split; [|reflexivity]. intros k'. cbn [i_drop set_parts_i i_parts ip_fwd s_del live]. rewrite get_del. destruct (eqb k' k); [discriminate|apply H].
  Qed.
  Lemma frame_add k x st : frame st (i_add_set k x st).
  Proof.
    split; [cbn; lia|]. intros r Hr H. split.
    - intros k'. cbn [i_add_set i_parts ip_fwd s_put live]. rewrite get_put. destruct (eqb k' k); [intros E; injection E as E; lia|apply H].
    - cbn [i_add_set i_sets s_put live]. apply get_put_other. lia.
  Qed.
  Lemma frame_write k r x x0 st : i_lookup empty k st = Some (r, x0) -> frame st (i_write r x st).
  Proof.
    intros E. unfold i_lookup in E. destruct (get (live (ip_fwd (i_parts st))) k) as [r'|] eqn:E1; [|discriminate]. injection E as -> _.
    split; [cbn; lia|]. intros r' _ H. split; [exact H|]. cbn [i_write i_sets s_put live]. apply get_put_other. intros ->. exact (H k E1).
  Qed.
  Lemma frame_unindex d st : frame st (fst (pf_unindex d st)).
  Proof.
    unfold pf_unindex. destruct (i_rev_get d st) as [v|]; [|apply frame_refl]. cbv zeta.
    pose proof (frame_del_rev d st) as H1. destruct (pf_get v (i_del_rev d st)) as [[[r s]|]|e] eqn:E; cbn [fst].
    - apply pf_get_lookup in E. destruct (mem d s); cbn [fst].
      + pose proof (frame_write v r (srem d s) s _ E) as H2. eapply frame_trans; [|apply frame_change].
        destruct (is_empty (srem d s)).
        * eapply frame_trans; [|apply frame_drop]. eapply frame_trans; [exact H1|exact H2].
        * eapply frame_trans; [exact H1|exact H2].
      + eapply frame_trans; [exact H1|apply frame_change].
    - eapply frame_trans; [exact H1|apply frame_change].
    - exact H1.
  Qed.
  Lemma frame_insert d v st : frame st (fst (pf_insert d v st)).
  Proof.
    unfold pf_insert. destruct (pf_get v st) as [[[r s]|]|e] eqn:E; cbn [fst]; [| |apply frame_refl].
    - apply pf_get_lookup in E. eapply frame_trans; [|apply frame_put_rev]. eapply frame_trans; [|apply frame_change]. exact (frame_write v r _ s _ E).
    - eapply frame_trans; [|apply frame_put_rev]. eapply frame_trans; [|apply frame_change].
      eapply frame_trans; [apply frame_add|]. exact (frame_write v _ _ _ _ (lookup_added empty v empty st)).
  Qed.
  Lemma frame_index d v st : frame st (fst (pf_index d v st)).
  Proof.
    unfold pf_index. destruct (i_rev_get d st); [|apply frame_insert]. destruct (pf_get v st) as [found|e]; [|apply frame_refl].
    destruct (match found with Some (_, s) => mem d s | None => false end); [apply frame_refl|].
    pose proof (frame_unindex d st) as H. destruct (pf_unindex d st) as [st1 [u|e]]; cbn [fst] in *; [|exact H].
    eapply frame_trans; [exact H|apply frame_insert].
  Qed.
  Lemma frame_call o st : frame st (fst (pf_call o st)).
  Proof. destruct o; cbn [pf_call]; [apply frame_index|apply frame_unindex|apply frame_clear]. Qed.

  Lemma new_set_ok x st : iinv st -> iinv (h_new_set x st) /\ lv (h_new_set x st) = lv st.
  Proof.
    intros [I1 I2 I3 I4 I5 I6]. split.
    - constructor; cbn; auto using @sok_put; [eapply iown_mono; [|exact I5]; lia|].
      unfold i_base in *. cbn. destruct (i_old st); (eapply iown_mono; [|exact I6]; lia).
    - unfold L_pindex.lv. cbn. f_equal. apply view_fresh_i. exact I5.
  Qed.
  Lemma write_loose r x st : iinv st -> loose r st -> iinv (i_write r x st) /\ lv (i_write r x st) = lv st.
  Proof.
    intros [I1 I2 I3 I4 I5 I6] H. split; [constructor; cbn; auto using @sok_put|]. unfold L_pindex.lv. cbn. f_equal.
    apply smap_ext. intros k. rewrite !get_mmap. destruct (get _ k) as [r'|] eqn:E; [|reflexivity]. unfold content. rewrite get_put_other; [reflexivity|].
    intros ->. exact (H k E).
  Qed.
  Lemma apply_ok q st : h_apply q st =
    match f_apply q (to_f (lv st)) with Ok s => (h_new_set s st, Ok (i_fresh st)) | Raise e => (st, Raise e) end.
  Proof.
    unfold h_apply, f_apply. destruct q as [[|lo [|hi [|z l]]]|]; try reflexivity. cbn [to_f fwd]. unfold L_pindex.lv. cbn [w_fwd].
    rewrite bt_range_mmap. destruct (bt_range _ lo hi); reflexivity.
  Qed.

  (** ** Runs *)
  Record hok (s : pst * list Z) (c : list (fop T) * list (sset Z)) : Prop := mkHok {
    k_inv : iinv (fst s);
    k_live : to_f (lv (fst s)) = f_run (fst c);
    k_nodup : NoDup (snd s);
    k_loose : forall r, In r (snd s) -> r < i_fresh (fst s) /\ loose r (fst s);
    k_answers : h_answers s = snd c
  }.
  Lemma hok_step e s c : hok s c -> hok (h_event s e) (own_event c e).
  Proof.
    destruct s as [st refs], c as [calls ans]. intros [Hi Hl Hn Ho Ha]. cbn [fst snd] in *. destruct e as [o|q|k f]; cbn [h_event own_event fst snd].
    - destruct (pf_call_sim o st Hi) as (A1 & _ & A3 & _). destruct (frame_call o st) as [F1 F2]. constructor; cbn [fst snd]; auto.
      + unfold f_run. rewrite fold_left_app, A3, Hl. reflexivity.
      + intros r Hr. destruct (Ho r Hr) as [B1 B2]. destruct (F2 r B1 B2) as [D1 _]. split; [lia|exact D1].
      + rewrite <- Ha. unfold h_answers. cbn [fst snd]. apply map_ext_in. intros r Hr. destruct (Ho r Hr) as [B1 B2].
        destruct (F2 r B1 B2) as [_ D2]. unfold content. rewrite D2. reflexivity.
    - rewrite apply_ok, Hl. destruct (f_apply q (f_run calls)) as [x|e]; [|constructor; auto].
      destruct (new_set_ok x st Hi) as [A1 A2]. constructor; cbn [fst snd]; auto; [congruence| | |].
      + apply NoDup_snoc; [exact Hn|]. intros Hr. destruct (Ho _ Hr) as [B _]. lia.
      + intros r Hr. cbn [h_new_set i_fresh]. apply in_app_or in Hr as [Hr|[<-|[]]].
        * destruct (Ho r Hr) as [B1 B2]. split; [lia|exact B2].
        * split; [lia|]. intros k E. destruct (v_live _ Hi _ _ E) as [B _]. lia.
      + unfold h_answers in *. cbn [fst snd] in *. rewrite map_app, <- Ha. cbn [map]. f_equal.
        * apply map_ext_in. intros r Hr. destruct (Ho r Hr) as [B1 _]. unfold content. cbn [h_new_set i_sets s_put live].
          rewrite get_put_other by lia. reflexivity.
        * unfold content. cbn [h_new_set i_sets s_put live]. rewrite get_put_same. reflexivity.
    - assert (Hnth : nth_error ans k = option_map (content empty (live (i_sets st))) (nth_error refs k)).
      { rewrite <- Ha. unfold h_answers. cbn [fst snd]. apply nth_error_map. }
      destruct (nth_error refs k) as [r|] eqn:E; cbn [option_map] in Hnth.
      + pose proof (nth_error_In _ _ E) as Hr. destruct (Ho r Hr) as [B1 B2].
        destruct (write_loose r (f (content empty (live (i_sets st)) r)) st Hi B2) as [A1 A2].
        constructor; cbn [fst snd]; auto; [congruence|].
        rewrite (nth_change _ _ _ _ Hnth), <- Ha. unfold h_answers. cbn [fst snd]. rewrite firstn_map, skipn_map.
        pose proof (nth_split_at _ _ _ E) as Es. set (A := firstn k refs) in *. set (B := skipn (S k) refs) in *. clearbody A B.
        rewrite Es in Hn |- *. rewrite map_app. cbn [map]. apply NoDup_remove_2 in Hn.
        assert (Hm : forall l, (forall x, In x l -> x <> r) -> map (content empty (live (i_sets (i_write r (f (content empty (live (i_sets st)) r)) st)))) l =
                               map (content empty (live (i_sets st))) l).
        { intros l Hx. apply map_ext_in. intros r' Hr'. unfold content. cbn [i_write i_sets s_put live]. rewrite get_put_other; [reflexivity|]. exact (Hx r' Hr'). }
        rewrite !Hm by (intros x Hx ->; apply Hn; apply in_or_app; auto). f_equal. f_equal.
        unfold content at 1. cbn [i_write i_sets s_put live]. rewrite get_put_same. reflexivity.
      + rewrite (nth_change_none _ _ _ Hnth). constructor; auto.
  Qed.
  Lemma h_run_ok (evs : list (hevent T)) :
    pf_live (fst (h_run evs)) = f_run (fst (own_answers evs)) /\ h_answers (h_run evs) = snd (own_answers evs).
  Proof.
    assert (H : forall s c, hok s c -> hok (fold_left h_event evs s) (fold_left own_event evs c)).
    { induction evs as [|e evs IH]; intros s c Hs; [exact Hs|]. cbn [fold_left]. apply IH, hok_step, Hs. }
    destruct (H (i_new, []) ([], [])) as [A1 A2 A3 A4 A5]; [|split; [exact A2|exact A5]].
    constructor; cbn [fst snd]; [apply iinv_new|exact pf_new|constructor|intros r []|reflexivity].
  Qed.
End FHeapL.
