(** * Lemmas about sorting one document at a time *)
From Verif Require Import S_sortgen M_sortgen S_field M_field L_field L_fieldsort SMap PyVal Ord.

Section L.
  Context {T : Type} `{OT : Ord T}.
  Notation pyval := (pyval T).
  Notation fop := (fop T).
  Notation fstate := (fstate T).
  Notation world := (world T).
  Notation event := (event T).
  Implicit Types (w : world) (evs : list event) (o : fop) (h calls : list fop).

  (** ** The trees *)
  Lemma w_run h w : w_st (fold_left w_call h w) = fold_left (fun st o => fst (f_step st o)) h (w_st w).
  Proof.
    revert w; induction h as [|o h IH]; intros w; [reflexivity|]. cbn [fold_left]. rewrite IH.
    f_equal. destruct o; reflexivity.
  Qed.
  Lemma w_run_new h : w_st (fold_left w_call h w_new) = f_run h.
  Proof. apply w_run. Qed.

  Lemma gen_mono w calls : w_gen w <= w_gen (fold_left w_call calls w).
  Proof.
    revert w; induction calls as [|o calls IH]; intros w; [cbn; lia|]. cbn [fold_left].
    etransitivity; [|apply IH]. destruct o; cbn; lia.
  Qed.
  Lemma gen_same w calls : ~ In FClear calls -> w_gen (fold_left w_call calls w) = w_gen w.
  Proof.
    revert w; induction calls as [|o calls IH]; intros w H; [reflexivity|]. cbn [fold_left].
    rewrite IH by (intros Hi; apply H; right; exact Hi). destruct o; try reflexivity. exfalso. apply H; left; reflexivity.
  Qed.
  Lemma trees_now w : w_trees w (w_gen w) = (w_st w, w_ver w).
  Proof. unfold w_trees. rewrite Z.eqb_refl. reflexivity. Qed.
  Lemma trees_old w o g : g < w_gen w -> w_trees (w_call w o) g = w_trees w g.
  Proof.
    intros H. unfold w_trees. replace (g =? w_gen w) with false by lia.
    destruct o; cbn [w_call w_gen w_old]; try (replace (g =? w_gen w) with false by lia; reflexivity).
    replace (g =? w_gen w + 1) with false by lia. rewrite get_put_other by lia. reflexivity.
  Qed.
  Lemma trees_clear w : w_trees (w_call w FClear) (w_gen w) = w_trees w (w_gen w).
  Proof.
    rewrite trees_now. unfold w_trees. cbn [w_call w_gen w_old].
    replace (w_gen w =? w_gen w + 1) with false by lia. rewrite get_put_same. reflexivity.
  Qed.
  Lemma trees_olds w calls g : g < w_gen w -> w_trees (fold_left w_call calls w) g = w_trees w g.
  Proof.
    revert w; induction calls as [|o calls IH]; intros w H; [reflexivity|]. cbn [fold_left].
    rewrite IH, trees_old; [reflexivity|exact H|]. pose proof (gen_mono w [o]) as Hm. cbn in Hm. lia.
  Qed.
  Lemma trees_cleared w calls : w_trees (fold_left w_call (FClear :: calls) w) (w_gen w) = (w_st w, w_ver w).
  Proof. cbn [fold_left]. rewrite trees_olds by (cbn; lia). rewrite trees_clear. apply trees_now. Qed.

  (** ** Events *)
  Lemma calls_app evs1 evs2 : calls_of (evs1 ++ evs2) = calls_of evs1 ++ calls_of evs2.
  Proof. unfold calls_of. rewrite map_app, concat_app. reflexivity. Qed.
  Lemma calls_calls calls : calls_of (map ECall calls) = calls.
  Proof. induction calls as [|o l IH]; [reflexivity|]. cbn. f_equal. exact IH. Qed.
  Lemma calls_nexts n : calls_of (repeat (@ENext T) n) = [].
  Proof. induction n as [|n IH]; [reflexivity|]. exact IH. Qed.
  Lemma nexts_nexts n : nexts_of (repeat (@ENext T) n) = n.
  Proof. unfold nexts_of. induction n as [|n IH]; [reflexivity|]. cbn. f_equal. exact IH. Qed.

  Lemma one_nil n : one_by_one (Ok []) n = repeat Stop n.
  Proof. unfold one_by_one. cbn [map app]. rewrite <- (repeat_length Stop n) at 1. apply firstn_all. Qed.
  Lemma firstn_stops n k (l : list nexted) : (n <= k)%nat -> firstn n (l ++ repeat Stop k) = firstn n (l ++ repeat Stop n).
  Proof.
    intros H. rewrite !firstn_app. f_equal. replace k with (n + (k - n))%nat by lia. rewrite repeat_app, firstn_app.
    replace (n - length l - length (repeat Stop n))%nat with 0%nat by (rewrite repeat_length; lia).
    cbn. apply app_nil_r.
  Qed.
  Lemma one_cons d l n : one_by_one (Ok (d :: l)) (S n) = Yield d :: one_by_one (Ok l) n.
  Proof. unfold one_by_one. cbn [map app firstn]. f_equal. apply firstn_stops. lia. Qed.
  Lemma one_err e n : one_by_one (Raise e) (S n) = Err e :: repeat Stop n.
  Proof.
    unfold one_by_one. cbn [app firstn]. f_equal. change (firstn n (repeat Stop (S n))) with (firstn n ([] ++ repeat Stop (S n))).
    rewrite firstn_stops by lia. apply (one_nil n).
  Qed.

  Section Sorting.
    Variable heur : Z -> Z -> bool.
    Variables (ovl ovn : bool) (docids : list Z) (reverse : bool) (limit : option Z).
    Notation g_next := (g_next heur ovl ovn docids reverse limit).
    Notation g_begin := (g_begin heur ovl ovn docids reverse limit).
    Notation g_resume := (g_resume limit).
    Notation g_trace := (g_trace heur ovl ovn docids reverse limit).
    Notation g_step := (g_step heur ovl ovn docids reverse limit).
    Notation f_sort := (f_sort heur ovl ovn docids reverse limit).
    Notation g_run := (g_run heur ovl ovn docids reverse limit).


    Lemma trace_calls w (s : gstate) calls evs : g_trace w s (map ECall calls ++ evs) = g_trace (fold_left w_call calls w) s evs.
    Proof. revert w; induction calls as [|o l IH]; intros w; [reflexivity|]. cbn. apply IH. Qed.
    Lemma trace_app w (s : gstate) evs1 evs2 :
      g_trace w s (evs1 ++ evs2) =
      g_trace w s evs1 ++ g_trace (fst (fold_left g_step evs1 (w, s))) (snd (fold_left g_step evs1 (w, s))) evs2.
    Proof.
      revert w s; induction evs1 as [|[o|] evs1 IH]; intros w s; [reflexivity|cbn; apply IH|].
      cbn [app M_sortgen.g_trace fold_left]. unfold M_sortgen.g_step at 2 4. cbn [fst snd].
      destruct (g_next w s) as [s' x]. cbn [fst app]. f_equal. apply IH.
    Qed.
    Lemma steps_world evs w (s : gstate) : fst (fold_left g_step evs (w, s)) = fold_left w_call (calls_of evs) w.
    Proof.
      revert w s; induction evs as [|[o|] evs IH]; intros w s; [reflexivity| |]; cbn [fold_left].
      - unfold M_sortgen.g_step at 2. cbn [fst snd]. rewrite IH. reflexivity.
      - unfold M_sortgen.g_step at 2. cbn [fst snd]. rewrite IH. reflexivity.
    Qed.

    (** ** A generator that has ended, and one that has its list *)
    Lemma trace_done evs w : g_trace w GDone evs = repeat Stop (nexts_of evs).
    Proof. revert w; induction evs as [|[o|] evs IH]; intros w; [reflexivity|apply IH|]. cbn. f_equal. apply IH. Qed.
    Lemma trace_list evs w l : g_trace w (GList l) evs = one_by_one (Ok l) (nexts_of evs).
    Proof.
      revert w l; induction evs as [|[o|] evs IH]; intros w l; [reflexivity|apply IH|].
      destruct l as [|d l]; cbn [M_sortgen.g_trace M_sortgen.g_next M_sortgen.g_resume].
      - rewrite trace_done, one_nil. reflexivity.
      - change (nexts_of (ENext :: evs)) with (S (nexts_of evs)). rewrite one_cons. f_equal. apply IH.
    Qed.

    Definition lim (n : Z) (l : list Z) : list Z := if limit_hit limit n then [] else yield_limit limit n l.
    Lemma lim_cons n d l : limit_hit limit n = false -> lim n (d :: l) = d :: lim (n + 1) l.
    Proof. intros H. unfold lim. rewrite H. reflexivity. Qed.

    Lemma next_present_filter (m : smap Z pyval) l :
      filter (fun d => mem d m) l = match next_present m l with None => [] | Some (d, l') => d :: filter (fun d => mem d m) l' end.
    Proof. induction l as [|d l IH]; [reflexivity|]. cbn. destruct (mem d m); [reflexivity|exact IH]. Qed.
    Lemma next_present_split (m : smap Z pyval) l d l' : next_present m l = Some (d, l') ->
      mem d m = true /\ exists skipped, l = skipped ++ d :: l' /\ Forall (fun x => mem x m = false) skipped.
    Proof.
      induction l as [|x l IH]; [discriminate|]. cbn. destruct (mem x m) eqn:E.
      - intros H; injection H as -> ->. split; [exact E|]. exists []. split; [reflexivity|constructor].
      - intros H. destruct (IH H) as (H1 & sk & -> & H2). split; [exact H1|]. exists (x :: sk). split; [reflexivity|].
        constructor; assumption.
    Qed.
    Lemma next_present_none (m : smap Z pyval) l : next_present m l = None -> Forall (fun x => mem x m = false) l.
    Proof.
      induction l as [|x l IH]; [constructor|]. cbn. destruct (mem x m) eqn:E; [discriminate|].
      intros H. constructor; [exact E|apply IH, H].
    Qed.

    Lemma trace_sorted evs w g l n (p : Z -> bool) :
      (forall c c', calls_of evs = c ++ c' ->
         forall d, In d l -> mem d (rev_ix (fst (w_trees (fold_left w_call c w) g))) = p d) ->
      g_trace w (GSorted g l n) evs = one_by_one (Ok (lim n (filter p l))) (nexts_of evs).
    Proof.
      revert w l n; induction evs as [|[o|] evs IH]; intros w l n H; [reflexivity| |].
      - cbn [M_sortgen.g_trace]. rewrite IH; [reflexivity|]. intros c c' E. apply (H (o :: c) c').
        change (o :: calls_of evs = (o :: c) ++ c'). rewrite E. reflexivity.
      - cbn [M_sortgen.g_trace M_sortgen.g_next M_sortgen.g_resume].
        change (nexts_of (ENext :: evs)) with (S (nexts_of evs)).
        unfold lim at 1. destruct (limit_hit limit n) eqn:El.
        { rewrite trace_done, one_nil. reflexivity. }
        set (m := rev_ix (fst (w_trees w g))).
        assert (Hf : filter p l = filter (fun d => mem d m) l).
        { apply filter_ext_in. intros d Hd. symmetry. apply (H [] (calls_of evs) eq_refl d Hd). }
        rewrite Hf, next_present_filter. destruct (next_present m l) as [[d l']|] eqn:En.
        + change (yield_limit limit n (d :: filter (fun d => mem d m) l'))
            with (d :: lim (n + 1) (filter (fun d => mem d m) l')).
          rewrite one_cons. f_equal. apply next_present_split in En as (_ & sk & -> & _).
          rewrite (IH w l' (n + 1)).
          * f_equal. f_equal. f_equal. apply filter_ext_in. intros x Hx. symmetry. apply (H [] (calls_of evs) eq_refl).
            apply in_or_app; right; right; exact Hx.
          * intros c c' E x Hx. apply (H c c' E). apply in_or_app; right; right; exact Hx.
        + cbn [yield_limit]. rewrite trace_done, one_nil. reflexivity.
    Qed.

    Lemma trace_lazy evs w g ver l n :
      (forall c c', calls_of evs = c ++ c' -> snd (w_trees (fold_left w_call c w) g) = ver) ->
      g_trace w (GLazy g ver l n) evs = one_by_one (Ok (lim n l)) (nexts_of evs).
    Proof.
      revert w l n; induction evs as [|[o|] evs IH]; intros w l n H; [reflexivity| |].
      - cbn [M_sortgen.g_trace]. rewrite IH; [reflexivity|]. intros c c' E. apply (H (o :: c) c').
        change (o :: calls_of evs = (o :: c) ++ c'). rewrite E. reflexivity.
      - cbn [M_sortgen.g_trace M_sortgen.g_next M_sortgen.g_resume].
        change (nexts_of (ENext :: evs)) with (S (nexts_of evs)).
        unfold lim at 1. destruct (limit_hit limit n) eqn:El.
        { rewrite trace_done, one_nil. reflexivity. }
        pose proof (H [] (calls_of evs) eq_refl) as Hv. cbn [fold_left] in Hv. rewrite Hv, Z.eqb_refl. cbn [negb].
        destruct l as [|d l].
        + cbn [yield_limit]. rewrite trace_done, one_nil. reflexivity.
        + change (yield_limit limit n (d :: l)) with (d :: lim (n + 1) l). rewrite one_cons. f_equal. apply IH, H.
    Qed.

    (** ** How the first [next()] begins *)
    Definition fewb : bool :=
      ovn || match limit with Some k => negb (k =? 0) && (k * 4 <? Zsize (set_of_list docids)) | None => false end.
    Inductive begun w : res gstate -> res (list Z) -> Prop :=
    | b_err e : begun w (Raise e) (Raise e)
    | b_none : num_docs (w_st w) = 0 \/ is_empty (set_of_list docids) = true -> begun w (Ok GDone) (Ok [])
    | b_list l : few ovn docids limit -> begun w (Ok (GList l)) (Ok l)
    | b_lazy l : fewb = false -> ovl || heur (Zsize (set_of_list docids)) (num_docs (w_st w)) = true -> reverse = false ->
        l = concat (map (fun s => selems (sinter (set_of_list docids) s)) (vals (fwd (w_st w)))) ->
        begun w (Ok (GLazy (w_gen w) (w_ver w) l 0)) (Ok (lim 0 l))
    | b_sorted l : fewb = false ->
        ~ (reverse = false /\ ovl || heur (Zsize (set_of_list docids)) (num_docs (w_st w)) = true) ->
        Permutation l (selems (set_of_list docids)) ->
        begun w (Ok (GSorted (w_gen w) l 0)) (Ok (lim 0 (filter (fun d => mem d (rev_ix (w_st w))) l))).

    Lemma few_b : fewb = true -> few ovn docids limit.
    Proof.
      unfold fewb, few. rewrite orb_true_iff. intros [H|H]; [left; exact H|right]. destruct limit as [k|]; [|discriminate].
      apply andb_true_iff in H as [_ H]. exists k. split; [reflexivity|]. apply Z.ltb_lt, H.
    Qed.
    Lemma begin_cases w : begun w (g_begin w) (f_sort (w_st w)).
    Proof.
      unfold M_sortgen.g_begin, M_field.f_sort.
      destruct (match limit with Some k => k <? 1 | None => false end) eqn:E1; [constructor|].
      assert (H0 : limit_hit limit 0 = false) by (destruct limit; cbn in *; lia).
      destruct (num_docs (w_st w) =? 0) eqn:En; [constructor; left; apply Z.eqb_eq, En|].
      destruct (is_empty (set_of_list docids)) eqn:Ee; [constructor; right; exact Ee|].
      fold fewb. destruct fewb eqn:Ef.
      - destruct reverse.
        + destruct (nlargest limit _) as [r|e]; [|constructor]. cbn. constructor. apply few_b, Ef.
        + destruct (nsmallest limit _) as [r|e]; [|constructor]. cbn. constructor. apply few_b, Ef.
      - destruct ((ovl || heur _ _) && negb reverse) eqn:El.
        + apply andb_true_iff in El as [El Er].
          replace (yield_limit limit 0 (concat (map (fun s => selems (sinter (set_of_list docids) s)) (vals (fwd (w_st w))))))
            with (lim 0 (concat (map (fun s => selems (sinter (set_of_list docids) s)) (vals (fwd (w_st w)))))).
          * constructor; [exact Ef|exact El|destruct reverse; [discriminate|reflexivity]|reflexivity].
          * unfold lim. rewrite H0. reflexivity.
        + unfold py_sorted. destruct (all_pairs _ _); [|constructor]. cbn [bind].
          set (l := isort _ (selems (set_of_list docids))).
          replace (yield_limit limit 0 (filter (fun d => mem d (rev_ix (w_st w))) l))
            with (lim 0 (filter (fun d => mem d (rev_ix (w_st w))) l)) by (unfold lim; rewrite H0; reflexivity).
          constructor; [exact Ef| |apply isort_perm].
          intros [Hr Hl]. rewrite Hl, Hr in El. discriminate.
    Qed.

    (** A running generator's trace does not begin with the first [next()]. *)
    Lemma trace_start w evs :
      g_trace w GStart (ENext :: evs) =
      match g_begin w with Raise e => Err e :: repeat Stop (nexts_of evs) | Ok s => g_trace w s (ENext :: evs) end.
    Proof.
      cbn [M_sortgen.g_trace M_sortgen.g_next].
      pose proof (begin_cases w) as Hb. inversion Hb; subst; cbn [M_sortgen.g_next]; try reflexivity.
      rewrite trace_done. reflexivity.
    Qed.

    (** ** The first [next()] decides *)
    Definition calm (w : world) (calls : list fop) : Prop :=
      forall c c', calls = c ++ c' ->
        (forall d, In d docids -> mem d (rev_ix (fst (w_trees (fold_left w_call c w) (w_gen w)))) = mem d (rev_ix (w_st w))) /\
        (fewb = false -> reverse = false -> ovl || heur (Zsize (set_of_list docids)) (num_docs (w_st w)) = true ->
         snd (w_trees (fold_left w_call c w) (w_gen w)) = w_ver w).
    Lemma in_sel d : In d (selems (set_of_list docids)) <-> In d docids.
    Proof. rewrite selems_In. apply mem_set_of_list_In. Qed.

    Lemma trace_calm w evs : calm w (calls_of evs) ->
      g_trace w GStart (ENext :: evs) = one_by_one (f_sort (w_st w)) (S (nexts_of evs)).
    Proof.
      intros H. rewrite trace_start.
      assert (Hc : forall c c', calls_of (ENext :: evs) = c ++ c' -> calls_of evs = c ++ c') by (intros c c' E; exact E).
      destruct (begin_cases w) as [e|_|l _|l H1 H2 H3 _|l _ _ Hp]; cbn [M_sortgen.g_trace M_sortgen.g_next].
      - rewrite one_err. reflexivity.
      - cbn [M_sortgen.g_resume]. rewrite trace_done, one_nil. reflexivity.
      - apply (trace_list (ENext :: evs)).
      - apply (trace_lazy (ENext :: evs)). intros c c' E. apply (H c c'); [apply Hc, E|assumption..].
      - apply (trace_sorted (ENext :: evs)). intros c c' E d Hd. apply (H c c' (Hc c c' E)).
        apply in_sel. apply (Permutation_in _ Hp Hd).
    Qed.
    Lemma trace_few w evs : few ovn docids limit -> limit <> Some 0 ->
      g_trace w GStart (ENext :: evs) = one_by_one (f_sort (w_st w)) (S (nexts_of evs)).
    Proof.
      intros Hf H0. rewrite trace_start.
      assert (Hb : fewb = true).
      { unfold fewb. destruct Hf as [->|(k & -> & Hk)]; [reflexivity|]. apply orb_true_iff. right.
        apply andb_true_iff. split; [|apply Z.ltb_lt, Hk]. destruct (Z.eqb_spec k 0); [subst; contradiction|reflexivity]. }
      destruct (begin_cases w) as [e|_|l _|l H1 H2 H3 _|l H1 _ Hp]; cbn [M_sortgen.g_trace M_sortgen.g_next]; try congruence.
      - rewrite one_err. reflexivity.
      - cbn [M_sortgen.g_resume]. rewrite trace_done, one_nil. reflexivity.
      - apply (trace_list (ENext :: evs)).
    Qed.

    Lemma about_others_step (m : smap Z pyval) o d : about_others docids o -> In d docids ->
      mem d (current_step m o) = mem d m.
    Proof.
      unfold mem. destruct o as [d' v|d'|]; cbn [about_others current_step]; [| |intros []]; intros Hn Hd;
        assert (d <> d') by (intros ->; contradiction).
      - destruct (forallb _ _); [|reflexivity]. rewrite get_put_other by assumption. reflexivity.
      - rewrite get_del_other by assumption. reflexivity.
    Qed.
    Lemma others_rev h calls d : Forall (about_others docids) calls -> In d docids ->
      mem d (current (h ++ calls)) = mem d (current h).
    Proof.
      intros H Hd. revert h; induction H as [|o calls Ho H IH]; intros h; [rewrite app_nil_r; reflexivity|].
      replace (h ++ o :: calls) with ((h ++ [o]) ++ calls) by (rewrite <- app_assoc; reflexivity).
      rewrite IH, current_snoc. apply about_others_step; assumption.
    Qed.
    Lemma others_noclear calls : Forall (about_others docids) calls -> ~ In FClear calls.
    Proof. intros H Hi. rewrite Forall_forall in H. exact (H _ Hi). Qed.

    Lemma rev_current h : rev_ix (f_run h) = current h.
    Proof. apply (f_run_inv h). Qed.
    Lemma num_current h : num_docs (f_run h) = Zsize (current h).
    Proof. apply (f_run_inv h). Qed.
    Lemma after h : w_st (fold_left w_call h w_new) = f_run h.
    Proof. apply w_run_new. Qed.
    Lemma fold_calls (a b : list fop) w : fold_left w_call (a ++ b) w = fold_left w_call b (fold_left w_call a w).
    Proof. apply fold_left_app. Qed.

    Lemma prefix_split {A} (c c' b a : list A) : c ++ c' = b ++ a ->
      (exists b', b = c ++ b') \/ (exists a', c = b ++ a' /\ a = a' ++ c').
    Proof.
      revert b; induction c as [|x c IH]; intros b; [left; exists b; reflexivity|].
      destruct b as [|y b]; cbn.
      - intros <-. right. exists (x :: c). split; reflexivity.
      - intros H; injection H as -> H. destruct (IH b H) as [[b' ->]|(a' & -> & ->)]; [left; exists b'; reflexivity|].
        right. exists a'. split; reflexivity.
    Qed.

    Lemma harmless_calm h calls :
      (limit_ok limit) ->
      harmless docids (walks heur ovl ovn docids reverse limit h) calls -> calm (fold_left w_call h w_new) calls.
    Proof.
      intros Hlim (b & a & -> & Hb & Hw & Ha) c c' E. set (w := fold_left w_call h w_new).
      assert (Hb' : forall b1 b2, b = b1 ++ b2 -> w_trees (fold_left w_call b1 w) (w_gen w)
                     = (w_st (fold_left w_call b1 w), w_ver (fold_left w_call b1 w))).
      { intros b1 b2 Eb. rewrite <- (gen_same w b1); [apply trees_now|].
        apply others_noclear. rewrite Eb in Hb. apply Forall_app in Hb. apply Hb. }
      assert (Hm : forall b1 b2, b = b1 ++ b2 -> forall d, In d docids ->
                 mem d (rev_ix (w_st (fold_left w_call b1 w))) = mem d (rev_ix (w_st w))).
      { intros b1 b2 Eb d Hd. unfold w. rewrite <- fold_calls, !after, !rev_current. apply others_rev; [|exact Hd].
        rewrite Eb in Hb. apply Forall_app in Hb. apply Hb. }
      assert (Hnil : fewb = false -> reverse = false ->
         ovl || heur (Zsize (set_of_list docids)) (num_docs (w_st w)) = true -> b = []).
      { intros Hf Hr Hh. apply Hw. split; [|split; [exact Hr|]].
        - intros Hfew. unfold fewb in Hf. apply orb_false_iff in Hf as [F1 F2].
          destruct Hfew as [F|(k & Ek & Hk)]; [congruence|]. rewrite Ek in F2, Hlim. cbn in Hlim.
          apply andb_false_iff in F2 as [F2|F2]; [|lia]. apply negb_false_iff in F2. lia.
        - unfold w in Hh. rewrite after, num_current in Hh. apply orb_true_iff in Hh. exact Hh. }
      destruct (prefix_split c c' b a (eq_sym E)) as [[b' Eb]|(a' & -> & Ea)].
      - rewrite (Hb' c b' Eb). cbn [fst snd]. split.
        + apply (Hm c b' Eb).
        + intros Hf Hr Hh. specialize (Hnil Hf Hr Hh). rewrite Hnil in Eb. destruct c; [reflexivity|discriminate].
      - destruct a' as [|x a'].
        { rewrite app_nil_r. rewrite (Hb' b []) by (rewrite app_nil_r; reflexivity). cbn [fst snd]. split.
          - apply (Hm b []). rewrite app_nil_r. reflexivity.
          - intros Hf Hr Hh. rewrite (Hnil Hf Hr Hh). reflexivity. }
        destruct Ha as [->|[rest ->]]; [discriminate|]. cbn in Ea. injection Ea as <- Ea.
        assert (Ht : w_trees (fold_left w_call (b ++ FClear :: a') w) (w_gen w)
                     = (w_st (fold_left w_call b w), w_ver (fold_left w_call b w))).
        { rewrite fold_calls. rewrite <- (gen_same w b) by (apply others_noclear, Hb). apply trees_cleared. }
        rewrite Ht. cbn [fst snd]. split.
        + apply (Hm b []). rewrite app_nil_r. reflexivity.
        + intros Hf Hr Hh. rewrite (Hnil Hf Hr Hh). reflexivity.
    Qed.

    (** ** Theorems *)
    Lemma deferred h calls n :
      g_run h (map ECall calls ++ repeat ENext n) = one_by_one (f_sort (f_run (h ++ calls))) n.
    Proof.
      unfold M_sortgen.g_run. rewrite trace_calls, <- fold_calls. destruct n as [|n]; [reflexivity|]. cbn [repeat].
      rewrite trace_calm.
      - rewrite after, nexts_nexts. reflexivity.
      - rewrite calls_nexts. intros c c' E. destruct c; [|discriminate]. cbn [fold_left]. rewrite trees_now. cbn.
        split; intros; reflexivity.
    Qed.

    Lemma undisturbed h calls evs : limit_ok limit ->
      harmless docids (walks heur ovl ovn docids reverse limit (h ++ calls)) (calls_of evs) ->
      g_run h (map ECall calls ++ ENext :: evs) = one_by_one (f_sort (f_run (h ++ calls))) (S (nexts_of evs)).
    Proof.
      intros Hlim Hh. unfold M_sortgen.g_run. rewrite trace_calls, <- fold_calls, trace_calm.
      - rewrite after. reflexivity.
      - apply harmless_calm; assumption.
    Qed.

    Lemma fixed_few h calls evs : limit_ok limit -> few ovn docids limit ->
      g_run h (map ECall calls ++ ENext :: evs) = one_by_one (f_sort (f_run (h ++ calls))) (S (nexts_of evs)).
    Proof.
      intros Hlim Hh. unfold M_sortgen.g_run. rewrite trace_calls, <- fold_calls, trace_few, after; [reflexivity|exact Hh|].
      intros ->. cbn in Hlim. lia.
    Qed.
    Lemma not_asked h calls evs : g_run h (map ECall calls ++ evs) = g_run (h ++ calls) evs.
    Proof. unfold M_sortgen.g_run. rewrite trace_calls, fold_calls. reflexivity. Qed.

    (** ** Whatever the calls in between *)
    Lemma yielded_cons x xs : yielded (x :: xs) = match x with Yield d => d :: yielded xs | _ => yielded xs end.
    Proof. destruct x; reflexivity. Qed.
    Lemma yielded_app xs ys : yielded (xs ++ ys) = yielded xs ++ yielded ys.
    Proof. unfold yielded. rewrite map_app, concat_app. reflexivity. Qed.
    Lemma yielded_stops n : yielded (repeat Stop n) = [].
    Proof. induction n as [|n IH]; [reflexivity|exact IH]. Qed.
    Lemma yielded_one l n : yielded (one_by_one (Ok l) n) = firstn n l.
    Proof.
      revert l; induction n as [|n IH]; intros l; [reflexivity|]. destruct l as [|d l].
      - rewrite one_nil. apply (yielded_stops (S n)).
      - rewrite one_cons, yielded_cons, IH. reflexivity.
    Qed.
    Lemma yielded_lim (n : Z) l : limit_ok limit -> 0 <= n -> match limit with Some k => Zlen (lim n l) <= Z.max 0 (k - n) | None => True end.
    Proof.
      intros Hl Hn. unfold lim, limit_hit. destruct limit as [k|]; [|exact I]. cbn in Hl. replace (k =? 0) with false by lia.
      cbn [negb andb]. destruct (n >=? k) eqn:E; [cbn; lia|]. rewrite yield_limit_from by lia.
      unfold Zlen. rewrite firstn_length. lia.
    Qed.

    Definition chosen (l ys : list Z) (n : Z) : Prop :=
      (NoDup l -> NoDup ys) /\ (forall d, In d ys -> In d l) /\
      match limit with Some k => n <= k -> n + Zlen ys <= k | None => True end.
    Lemma chosen_nil l n : chosen l [] n.
    Proof. split; [constructor|]. split; [intros d []|]. destruct limit; [cbn; lia|exact I]. Qed.
    Lemma chosen_cons sk d l ys n : limit_ok limit -> limit_hit limit n = false -> chosen l ys (n + 1) ->
      chosen (sk ++ d :: l) (d :: ys) n.
    Proof.
      intros Hl Hn (H1 & H2 & H3). split; [|split].
      - intros Hnd. assert (Hd : NoDup (d :: l)) by (clear - Hnd; induction sk; [exact Hnd|inversion Hnd; auto]).
        inversion Hd as [|? ? N1 N2]; subst. constructor; [|auto]. intros Hi. apply N1, H2, Hi.
      - intros x [<-|Hx]; apply in_or_app; right; [left; reflexivity|right; apply H2, Hx].
      - destruct limit as [k|]; [|exact I]. unfold limit_hit in Hn. cbn in Hl. replace (k =? 0) with false in Hn by lia.
        cbn [negb andb] in Hn. unfold Zlen in *. cbn [length]. intros _. lia.
    Qed.

    Lemma chosen_sorted evs w g l n : limit_ok limit -> chosen l (yielded (g_trace w (GSorted g l n) evs)) n.
    Proof.
      intros Hlim. revert w l n; induction evs as [|[o|] evs IH]; intros w l n; [apply chosen_nil|apply IH|].
      cbn [M_sortgen.g_trace M_sortgen.g_next M_sortgen.g_resume].
      destruct (limit_hit limit n) eqn:El; [rewrite trace_done, yielded_cons, yielded_stops; apply chosen_nil|].
      destruct (next_present _ l) as [[d l']|] eqn:En; [|rewrite trace_done, yielded_cons, yielded_stops; apply chosen_nil].
      apply next_present_split in En as (_ & sk & -> & _). rewrite yielded_cons.
      apply chosen_cons; [exact Hlim|exact El|apply IH].
    Qed.
    Lemma chosen_lazy evs w g ver l n : limit_ok limit -> chosen l (yielded (g_trace w (GLazy g ver l n) evs)) n.
    Proof.
      intros Hlim. revert w l n; induction evs as [|[o|] evs IH]; intros w l n; [apply chosen_nil|apply IH|].
      cbn [M_sortgen.g_trace M_sortgen.g_next M_sortgen.g_resume].
      destruct (limit_hit limit n) eqn:El; [rewrite trace_done, yielded_cons, yielded_stops; apply chosen_nil|].
      destruct (negb _); [rewrite trace_done, yielded_cons, yielded_stops; apply chosen_nil|].
      destruct l as [|d l]; [rewrite trace_done, yielded_cons, yielded_stops; apply chosen_nil|].
      rewrite yielded_cons. apply (chosen_cons []); [exact Hlim|exact El|apply IH].
    Qed.

    Lemma few_facts h l : limit_ok limit -> few ovn docids limit -> f_sort (f_run h) = Ok l ->
      NoDup l /\ (forall d, In d l -> In d docids /\ exists v, get (current h) d = Some v) /\
      match limit with Some k => Zlen l <= k | None => True end.
    Proof.
      intros Hlim Hf. destruct (f_sort_cases heur ovl ovn docids reverse limit h Hlim) as [C1 C2].
      assert (N : NoDup (@nil Z) /\ (forall d, In d (@nil Z) -> In d docids /\ exists v, get (current h) d = Some v) /\
        match limit with Some k => Zlen (@nil Z) <= k | None => True end).
      { split; [constructor|]. split; [intros d []|]. destruct limit as [k|]; [|exact I]. cbn in *. lia. }
      destruct (is_empty (current h)) eqn:Em.
      { rewrite C1 by (left; reflexivity). intros E; injection E as <-. exact N. }
      destruct docids as [|d0 ds] eqn:Ed.
      { rewrite C1 by (right; reflexivity). intros E; injection E as <-. exact N. }
      rewrite C2 by (reflexivity || discriminate). rewrite <- Ed in *. clear C1 C2 N.
      assert (Hu : use_nb ovn limit docids = true).
      { unfold use_nb. destruct Hf as [->|(k & -> & Hk)]; [reflexivity|]. apply orb_true_iff; right. apply Z.ltb_lt, Hk. }
      rewrite Hu.
      assert (G : forall full order, sorted_list order (current h) docids full ->
        NoDup (truncate limit full) /\ (forall d, In d (truncate limit full) -> In d docids /\ exists v, get (current h) d = Some v) /\
        match limit with Some k => Zlen (truncate limit full) <= k | None => True end).
      { intros full order (_ & Hnd & Hin). destruct (truncate_split limit full) as [rest Hr]. split; [|split].
        - rewrite Hr in Hnd. clear - Hnd. induction (truncate limit full) as [|x r IH]; [constructor|].
          cbn in Hnd. inversion Hnd as [|? ? H1 H2]; subst. constructor; [|apply IH, H2].
          intros Hx. apply H1, in_or_app. left; exact Hx.
        - intros d Hd. apply Hin. rewrite Hr. apply in_or_app; left; exact Hd.
        - pose proof (truncate_length limit full Hlim) as Ht. destruct limit; [lia|exact I]. }
      destruct reverse.
      - destruct limit as [k|] eqn:Elim; [|discriminate]. destruct (all_pairs _ _); [|discriminate].
        intros E; injection E as <-. apply (G _ desc_order_nbest), desc_sorted_nbest.
      - destruct (all_pairs _ _); [|discriminate]. intros E; injection E as <-. apply (G _ asc_order), asc_sorted.
    Qed.

    Lemma first_next evs : (exists calls, evs = map ECall calls) \/ (exists calls evs', evs = map ECall calls ++ ENext :: evs').
    Proof.
      clear. induction evs as [|[o|] evs IH].
      - left. exists []. reflexivity.
      - destruct IH as [[c ->]|(c & e & ->)]; [left; exists (o :: c)|right; exists (o :: c), e]; reflexivity.
      - right. exists [], evs. reflexivity.
    Qed.
    Lemma only_calls h calls : g_run h (map ECall calls) = [].
    Proof. rewrite <- (app_nil_r (map _ _)), not_asked. reflexivity. Qed.

    Lemma sound h evs : limit_ok limit ->
      let ys := yielded (g_run h evs) in
      NoDup ys /\ (forall d, In d ys -> In d docids) /\
      match limit with Some k => Zlen ys <= k | None => True end.
    Proof.
      intros Hlim. cbv zeta.
      assert (N : NoDup (@nil Z) /\ (forall d, In d (@nil Z) -> In d docids) /\
        match limit with Some k => Zlen (@nil Z) <= k | None => True end).
      { split; [constructor|]. split; [intros d []|]. destruct limit as [k|]; [|exact I]. cbn in *. lia. }
      destruct (first_next evs) as [[c ->]|(c & evs' & ->)]; [rewrite only_calls; exact N|].
      rewrite not_asked. set (h' := h ++ c). unfold M_sortgen.g_run. set (w := fold_left w_call h' w_new).
      rewrite trace_start. pose proof (begin_cases w) as Hb.
      assert (Hw : w_st w = f_run h') by apply after.
      assert (G : forall l ys, chosen l ys 0 -> NoDup l -> (forall d, In d l -> In d docids) ->
                NoDup ys /\ (forall d, In d ys -> In d docids) /\ match limit with Some k => Zlen ys <= k | None => True end).
      { intros l ys (H1 & H2 & H3) Hnd Hin. split; [apply H1, Hnd|]. split; [intros d Hd; apply Hin, H2, Hd|].
        destruct limit as [k|]; [|exact I]. cbn in Hlim. lia. }
      remember (f_sort (w_st w)) as fs eqn:Efs.
      destruct Hb as [e|_|l Hf|l H1 H2 H3 El|l _ _ Hp].
      - rewrite yielded_cons, yielded_stops. exact N.
      - rewrite trace_done, yielded_stops. exact N.
      - rewrite trace_list, yielded_one. rewrite Hw in Efs.
        destruct (few_facts h' l Hlim Hf (eq_sym Efs)) as (F1 & F2 & F3).
        set (n := nexts_of _).
        split; [|split].
        + rewrite <- (firstn_skipn n l) in F1. clear - F1. induction (firstn n l) as [|x r IH]; [constructor|].
          cbn in F1. inversion F1 as [|? ? H1 H2]; subst. constructor; [|apply IH, H2].
          intros Hx. apply H1, in_or_app. left; exact Hx.
        + intros d Hd. apply F2. eapply firstn_In', Hd.
        + destruct limit as [k|]; [|exact I]. unfold Zlen in *. rewrite firstn_length. lia.
      - apply (G l); [apply chosen_lazy, Hlim| |]; pose proof (lazy_sorted _ _ docids (f_run_inv h')) as (_ & Hnd & Hin);
          rewrite <- Hw, <- El in *; [exact Hnd|]. intros d Hd. apply (Hin d), Hd.
      - apply (G l); [apply chosen_sorted, Hlim| |].
        + eapply Permutation_NoDup; [apply Permutation_sym, Hp|apply selems_NoDup].
        + intros d Hd. apply in_sel. apply (Permutation_in _ Hp Hd).
    Qed.

    (** ** Documents are indexed when they are yielded *)
    Definition here (w : world) (s : gstate) : Prop :=
      match s with
      | GStart | GDone => True
      | GList _ => False
      | GSorted g _ _ => g = w_gen w
      | GLazy g ver l _ => g = w_gen w /\ ver <= w_ver w /\
          (ver = w_ver w -> forall d, In d l -> mem d (rev_ix (w_st w)) = true)
      end.
    Lemma here_call w s o : o <> FClear -> here w s -> here (w_call w o) s.
    Proof.
      intros Ho. destruct s as [|l|g l n|g ver l n|]; cbn [here]; try exact id.
      - intros ->. destruct o; try reflexivity. contradiction.
      - intros (-> & H & _). destruct o; try contradiction; cbn [w_call w_gen w_ver]; (split; [reflexivity|split; [lia|]]);
          intros; lia.
    Qed.
    Lemma here_resume w s : here w s -> s <> GStart ->
      here w (fst (g_resume w s)) /\ forall d, snd (g_resume w s) = Yield d -> mem d (rev_ix (w_st w)) = true.
    Proof.
      intros H Hs. destruct s as [|l|g l n|g ver l n|]; cbn [M_sortgen.g_resume here] in *; try contradiction.
      - subst g. destruct (limit_hit limit n); [split; [exact I|discriminate]|]. rewrite trees_now. cbn [fst].
        destruct (next_present _ l) as [[d l']|] eqn:E; [|split; [exact I|discriminate]].
        split; [reflexivity|]. intros d' Ed. cbn in Ed. injection Ed as <-. apply next_present_split in E. apply E.
      - destruct H as (-> & Hle & Hd). destruct (limit_hit limit n); [split; [exact I|discriminate]|]. rewrite trees_now. cbn [snd].
        destruct (ver =? w_ver w) eqn:Ev; [|split; [exact I|discriminate]]. apply Z.eqb_eq in Ev. cbn [negb].
        destruct l as [|d l]; [split; [exact I|discriminate]|]. split.
        + cbn [fst here]. split; [reflexivity|split; [exact Hle|]]. intros _ x Hx. apply Hd; [exact Ev|right; exact Hx].
        + intros d' Ed. cbn in Ed. injection Ed as <-. apply Hd; [exact Ev|left; reflexivity].
      - split; [exact I|discriminate].
    Qed.
    Lemma here_next h calls s : ~ few ovn docids limit -> let w := fold_left w_call (h ++ calls) w_new in here w s ->
      here w (fst (g_next w s)) /\ forall d, snd (g_next w s) = Yield d -> mem d (rev_ix (w_st w)) = true.
    Proof.
      intros Hf w H. destruct s as [|l|g l n|g ver l n|]; try (apply here_resume; [exact H|discriminate]).
      cbn [M_sortgen.g_next]. pose proof (begin_cases w) as Hb. remember (f_sort (w_st w)) as fs eqn:Efs.
      destruct Hb as [e|He|l Hf'|l H1 H2 H3 El|l _ _ Hp]; try contradiction; try (split; [exact I|discriminate]).
      - apply here_resume; [|discriminate]. cbn [here]. split; [reflexivity|split; [lia|]]. intros _ d Hd.
        pose proof (lazy_sorted _ _ docids (f_run_inv (h ++ calls))) as (_ & _ & Hin).
        rewrite <- after in Hin. fold w in Hin. rewrite <- El in Hin. apply Hin in Hd as [_ [v Hv]].
        unfold w. rewrite after, rev_current. apply mem_get. exists v. exact Hv.
      - apply here_resume; [reflexivity|discriminate].
    Qed.
    Lemma here_steps h evs s : ~ few ovn docids limit -> ~ In FClear (calls_of evs) -> here (fold_left w_call h w_new) s ->
      here (fold_left w_call (calls_of evs) (fold_left w_call h w_new)) (snd (fold_left g_step evs (fold_left w_call h w_new, s))).
    Proof.
      intros Hf. revert h s; induction evs as [|[o|] evs IH]; intros h s Hc H; [exact H| |].
      - cbn [fold_left]. unfold M_sortgen.g_step at 2. cbn [fst snd].
        assert (E : w_call (fold_left w_call h w_new) o = fold_left w_call (h ++ [o]) w_new) by (rewrite fold_calls; reflexivity).
        rewrite E. change (calls_of (ECall o :: evs)) with (o :: calls_of evs) in *. cbn [fold_left]. rewrite E. apply IH.
        + intros Hi. apply Hc. right; exact Hi.
        + rewrite <- E. apply here_call; [|exact H]. intros ->. apply Hc. left; reflexivity.
      - cbn [fold_left]. unfold M_sortgen.g_step at 2. cbn [fst snd]. apply IH; [exact Hc|].
        pose proof (here_next h [] s Hf) as Hn. rewrite app_nil_r in Hn. apply Hn, H.
    Qed.

    Lemma present h evs xs d : ~ few ovn docids limit -> ~ In FClear (calls_of evs) ->
      g_run h (evs ++ [ENext]) = xs ++ [Yield d] -> exists v, get (current (h ++ calls_of evs)) d = Some v.
    Proof.
      intros Hf Hc E. unfold M_sortgen.g_run in E. rewrite trace_app, steps_world in E.
      cbn [M_sortgen.g_trace] in E. destruct (g_next _ _) as [s' x] eqn:En. apply app_inj_tail in E as [_ ->].
      rewrite <- fold_calls in En. destruct (here_next h (calls_of evs) (snd (fold_left g_step evs (fold_left w_call h w_new, GStart))) Hf) as [_ G].
      - rewrite fold_calls. apply here_steps; [exact Hf|exact Hc|exact I].
      - rewrite En in G. specialize (G d eq_refl). rewrite after, rev_current in G. apply mem_get in G. exact G.
    Qed.

    (** ** Documents that stay indexed are not missed *)
    Lemma stays_sorted evs w g l n d : limit_ok limit ->
      match limit with Some k => n <= k | None => True end ->
      (forall c c', calls_of evs = c ++ c' -> mem d (rev_ix (fst (w_trees (fold_left w_call c w) g))) = true) ->
      In d l -> In Stop (g_trace w (GSorted g l n) evs) ->
      let ys := yielded (g_trace w (GSorted g l n) evs) in
      In d ys \/ match limit with Some k => n + Zlen ys = k | None => False end.
    Proof.
      intros Hlim. cbv zeta. revert w l n; induction evs as [|[o|] evs IH]; intros w l n Hn H Hd Hs; [destruct Hs| |].
      - apply IH; try assumption. intros c c' E. apply (H (o :: c) c').
        change (o :: calls_of evs = (o :: c) ++ c'). rewrite E. reflexivity.
      - cbn [M_sortgen.g_trace M_sortgen.g_next M_sortgen.g_resume] in *.
        destruct (limit_hit limit n) eqn:El.
        { right. rewrite trace_done, yielded_cons, yielded_stops. unfold limit_hit in El. destruct limit as [k|]; [|discriminate].
          apply andb_true_iff in El as [_ El]. cbn. lia. }
        pose proof (H [] (calls_of evs) eq_refl) as Hm. cbn [fold_left] in Hm.
        destruct (next_present _ l) as [[d' l']|] eqn:En.
        + apply next_present_split in En as (_ & sk & -> & Hsk). rewrite yielded_cons.
          apply in_app_iff in Hd as [Hd|[->|Hd]].
          * rewrite Forall_forall in Hsk. rewrite (Hsk _ Hd) in Hm. discriminate.
          * left; left; reflexivity.
          * destruct Hs as [Hs|Hs]; [discriminate|]. destruct (IH w l' (n + 1)) as [G|G]; try assumption.
            { unfold limit_hit in El. destruct limit as [k|]; [|exact I]. cbn in Hlim. replace (k =? 0) with false in El by lia.
              cbn in El. lia. }
            { left; right; exact G. }
            { right. destruct limit as [k|]; [|exact G]. unfold Zlen in *. cbn [length]. lia. }
        + apply next_present_none in En. rewrite Forall_forall in En. rewrite (En _ Hd) in Hm. discriminate.
    Qed.

    Lemma complete h evs d : limit_ok limit -> ~ few ovn docids limit -> ~ walks heur ovl ovn docids reverse limit h ->
      (exists r, f_sort (f_run h) = Ok r) -> In d docids ->
      (forall evs1 evs2, evs = evs1 ++ evs2 -> exists v, get (current (h ++ calls_of evs1)) d = Some v) ->
      let xs := g_run h (ENext :: evs) in
      In Stop xs -> In d (yielded xs) \/ match limit with Some k => Zlen (yielded xs) = k | None => False end.
    Proof.
      intros Hlim Hf Hw [r Hr] Hd Hst. cbv zeta. unfold M_sortgen.g_run. set (w := fold_left w_call h w_new).
      assert (Hpre : forall c c', calls_of evs = c ++ c' -> exists evs1 evs2, evs = evs1 ++ evs2 /\ calls_of evs1 = c).
      { clear. induction evs as [|[o|] evs IH]; intros c c' E.
        - destruct c; [|discriminate]. exists [], []. split; reflexivity.
        - destruct c as [|o' c]; [exists [], (ECall o :: evs); split; reflexivity|].
          cbn in E. injection E as -> E. destruct (IH c c' E) as (e1 & e2 & -> & <-). exists (ECall o' :: e1), e2. split; reflexivity.
        - destruct (IH c c' E) as (e1 & e2 & -> & <-). exists (ENext :: e1), e2. split; reflexivity. }
      assert (Hin : forall c c', calls_of evs = c ++ c' -> exists v, get (current (h ++ c)) d = Some v).
      { intros c c' E. destruct (Hpre c c' E) as (e1 & e2 & E1 & <-). apply (Hst e1 e2 E1). }
      assert (Hnc : ~ In FClear (calls_of evs)).
      { intros Hc. apply in_split in Hc as (c1 & c2 & E). destruct (Hin (c1 ++ [FClear]) c2) as [v Hv].
        - rewrite E, <- app_assoc. reflexivity.
        - rewrite app_assoc, current_snoc in Hv. discriminate. }
      rewrite trace_start. pose proof (begin_cases w) as Hb. assert (Hw' : w_st w = f_run h) by apply after.
      remember (f_sort (w_st w)) as fs eqn:Efs. rewrite Hw', Hr in Efs.
      assert (Hm : mem d (current h) = true) by (apply mem_get; destruct (Hin [] _ eq_refl) as [v Hv]; rewrite app_nil_r in Hv; eauto).
      destruct Hb as [e|He|l Hf'|l H1 H2 H3 El|l _ _ Hp]; try contradiction; try discriminate.
      - exfalso. destruct He as [He|He].
        + rewrite Hw', num_current in He. unfold Zsize in He. apply (f_equal Z.to_nat) in He. rewrite Nat2Z.id in He.
          apply size_0 in He. rewrite He in Hm. discriminate.
        + pose proof (proj1 (is_empty_mem _) He d) as Hx. rewrite (proj2 (mem_set_of_list_In docids d) Hd) in Hx. discriminate.
      - exfalso. apply Hw. split; [exact Hf|split; [exact H3|]]. rewrite Hw', num_current in H2. apply orb_true_iff, H2.
      - intros Hs. destruct (stays_sorted (ENext :: evs) w (w_gen w) l 0 d Hlim) as [G|G]; try assumption.
        + destruct limit as [k|]; [cbn in Hlim; lia|exact I].
        + intros c c' E. change (calls_of evs = c ++ c') in E. rewrite <- (gen_same w c).
          * rewrite trees_now. cbn [fst]. unfold w. rewrite <- fold_calls, after, rev_current. apply mem_get, (Hin c c' E).
          * intros Hi. apply Hnc. rewrite E. apply in_or_app; left; exact Hi.
        + apply (Permutation_in _ (Permutation_sym Hp)), in_sel, Hd.
        + left; exact G.
        + right. exact G.
    Qed.
  End Sorting.
End L.
