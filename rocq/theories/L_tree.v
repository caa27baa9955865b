(** * Lemmas about query execution *)
From Verif Require Import M_tree S_tree S_setops M_setops L_setops S_parser L_query Arith SMap Ord.

(** ** Induction over trees *)
Section NodeInd.
  Variable P : node -> Prop.
  Hypothesis HA : forall w, P (NAtom w).
  Hypothesis HP : forall ws, P (NPhrase ws).
  Hypothesis HG : forall w, P (NGlob w).
  Hypothesis HN : forall n, P n -> P (NNot n).
  Hypothesis HAnd : forall l, Forall P l -> P (NAnd l).
  Hypothesis HOr : forall l, Forall P l -> P (NOr l).
  Fixpoint node_induction (n : node) : P n :=
    match n with
    | NAtom w => HA w | NPhrase ws => HP ws | NGlob w => HG w
    | NNot m => HN m (node_induction m)
    | NAnd l => HAnd l ((fix go l : Forall P l := match l with [] => Forall_nil P | x :: l' => Forall_cons x (node_induction x) (go l') end) l)
    | NOr l => HOr l ((fix go l : Forall P l := match l with [] => Forall_nil P | x :: l' => Forall_cons x (node_induction x) (go l') end) l)
    end.
End NodeInd.

Definition strip (x : node) : node := match x with NNot m => m | _ => x end.

Section Tree.
  Context {F : Type} {AF : Arith F}.
  Local Notation wmap := (smap Z F).
  Variable search : str -> res (option wmap).
  Variable search_phrase : list str -> res (option wmap).
  Variable search_glob : str -> res (option wmap).
  Local Notation exec := (executeQuery search search_phrase search_glob).
  Variable found : node -> option wmap.

  Definition run_leaf (n : node) : res (option wmap) :=
    match n with NAtom w => search w | NPhrase ws => search_phrase ws | NGlob w => search_glob w | _ => Raise QueryError end.
  Definition leaves_ok (n : node) : Prop := forall x, In x (leaves n) -> run_leaf x = Ok (found x).

  (** ** The loops *)
  Fixpoint and_loop (l : list node) (L Nots : list (wmap * F)) : res (list (wmap * F) * list (wmap * F)) :=
    match l with
    | [] => Ok (L, Nots)
    | NNot m :: l' => do r <- exec m; and_loop l' L (add_part Nots r)
    | x :: l' => do r <- exec x; and_loop l' (add_part L r) Nots
    end.
  Fixpoint or_loop (l : list node) (weighted : list (wmap * F)) : res (list (wmap * F)) :=
    match l with
    | [] => Ok weighted
    | x :: l' => do r <- exec x; or_loop l' (add_part weighted r)
    end.
  Lemma exec_NAnd l : exec (NAnd l) = (do (L, Nots) <- and_loop l [] []; and_combine L Nots).
  Proof. reflexivity. Qed.
  Lemma exec_NOr l : exec (NOr l) = (do weighted <- or_loop l []; do r <- mass_weightedUnion weighted; Ok (Some r)).
  Proof. reflexivity. Qed.
  Definition resv (x : node) : option wmap := match exec x with Ok r => r | Raise _ => None end.
  Definition part (r : option wmap) : list (wmap * F) := match r with Some m => [(m, f1)] | None => [] end.
  Lemma add_part_app L r : add_part L r = L ++ part r.
  Proof. destruct r; cbn; rewrite ?app_nil_r; reflexivity. Qed.
  Definition pos_part (x : node) : list (wmap * F) := match x with NNot _ => [] | _ => part (resv x) end.
  Definition neg_part (x : node) : list (wmap * F) := match x with NNot m => part (resv m) | _ => [] end.
  Lemma and_loop_ok l L N : Forall (fun x => exists r, exec (strip x) = Ok r) l ->
    and_loop l L N = Ok (L ++ flat_map pos_part l, N ++ flat_map neg_part l).
  Proof.
    intros H. revert L N; induction H as [|x l [r Hr] Hl IH]; intros L N; [cbn; rewrite !app_nil_r; reflexivity|].
    destruct x; cbn [and_loop strip flat_map pos_part neg_part] in *; unfold resv; rewrite Hr; cbn [bind]; rewrite IH, add_part_app, <- app_assoc; reflexivity.
  Qed.
  Lemma or_loop_ok l L : Forall (fun x => exists r, exec x = Ok r) l ->
    or_loop l L = Ok (L ++ flat_map (fun x => part (resv x)) l).
  Proof.
    intros H. revert L; induction H as [|x l [r Hr] Hl IH]; intros L; [cbn; rewrite !app_nil_r; reflexivity|].
    cbn [or_loop flat_map]. unfold resv at 1. rewrite Hr. cbn [bind]. rewrite IH, add_part_app, <- app_assoc. reflexivity.
  Qed.
  Lemma not_none_some (L : list (wmap * F)) : not_none (map (fun p => (Some (fst p), snd p)) L) = L.
  Proof. unfold not_none. induction L as [|[m w] L IH]; [reflexivity|]. cbn [map concat fst snd app]. f_equal. exact IH. Qed.

  (** ** Which documents are found *)
  Definition exec_sat (n : node) : Prop := exists r, exec n = Ok r /\ (r = None <-> neutral found n) /\
    forall m, r = Some m -> forall d, mem d m = true <-> sat found d n.
  Definition all_sat d (l : list node) : Prop :=
    (fix all l := match l with [] => True | x :: l' => (neutral found x \/ sat found d x) /\ all l' end) l.
  Lemma sat_and d l : sat found d (NAnd l) <->
    (exists x, In x l /\ is_NotNode x = false /\ ~ neutral found x) /\ Forall (fun x => neutral found x \/ sat found d x) l.
  Proof.
    cbn [sat]. apply and_iff_compat_l. induction l as [|x l IH]; [split; constructor|]. rewrite IH. split.
    - intros [H1 H2]. constructor; assumption.
    - intros H. inversion H; auto.
  Qed.
  Lemma sat_or d l : sat found d (NOr l) <-> exists x, In x l /\ sat found d x.
  Proof.
    cbn [sat]. induction l as [|x l IH].
    - split; [intros []|intros (x & [] & _)].
    - rewrite IH. split.
      + intros [H|(y & Hy & H)]; [exists x; split; [left; reflexivity|exact H]|exists y; split; [right; exact Hy|exact H]].
      + intros (y & [<-|Hy] & H); [left; exact H|right; exists y; auto].
  Qed.

  Lemma leaf_exec_sat n : run_leaf n = Ok (found n) -> (match n with NAtom _ | NPhrase _ | NGlob _ => True | _ => False end) -> exec_sat n.
  Proof.
    intros Hr Hl. exists (found n). destruct n; try destruct Hl; cbn [executeQuery run_leaf neutral sat] in *.
    all: split; [exact Hr|]; split; [reflexivity|].
    all: intros m Hm d; rewrite Hm; unfold mem; split; [destruct (get m d) as [v|] eqn:E; [intros _; eauto|discriminate]|intros (m' & v & [= <-] & ->); reflexivity].
  Qed.
  Lemma resv_ok x r : exec x = Ok r -> resv x = r.
  Proof. unfold resv. intros ->. reflexivity. Qed.

  Lemma forallb_flat_map {A B} (f : B -> bool) (g : A -> list B) l : forallb f (flat_map g l) = forallb (fun x => forallb f (g x)) l.
  Proof. induction l as [|a l IH]; [reflexivity|]. cbn. rewrite forallb_app, IH. reflexivity. Qed.
  Lemma existsb_flat_map {A B} (f : B -> bool) (g : A -> list B) l : existsb f (flat_map g l) = existsb (fun x => existsb f (g x)) l.
  Proof. induction l as [|a l IH]; [reflexivity|]. cbn. rewrite existsb_app, IH. reflexivity. Qed.

  Lemma executable_and l : executable (NAnd l) -> Forall (fun x => executable (strip x)) l.
  Proof.
    intros H. apply exec_and in H as [_ H]. eapply Forall_impl; [|exact H]. intros x Hx. destruct x; exact Hx.
  Qed.
  Lemma leaves_strip x : leaves (strip x) = leaves x.
  Proof. destruct x; reflexivity. Qed.
  Lemma leaves_ok_in l n x : (n = NAnd l \/ n = NOr l) -> leaves_ok n -> In x l -> leaves_ok (strip x) /\ leaves_ok x.
  Proof.
    intros Hn H Hx. assert (leaves_ok x).
    { intros y Hy. apply H. destruct Hn as [->| ->]; cbn [leaves]; apply in_flat_map; eauto. }
    split; [|assumption]. unfold leaves_ok in *. rewrite leaves_strip. assumption.
  Qed.

  Lemma part_neutral x : exec_sat x -> part (resv x) = [] <-> neutral found x.
  Proof. intros (r & Hr & Hn & _). rewrite (resv_ok x r Hr), <- Hn. destruct r; cbn; split; congruence. Qed.
  Lemma part_mem x d : exec_sat x -> existsb (fun p => mem d (fst p)) (part (resv x)) = true <-> sat found d x /\ ~ neutral found x.
  Proof.
    intros (r & Hr & Hn & Hs). rewrite (resv_ok x r Hr), <- Hn. destruct r as [m|]; cbn [part existsb fst].
    - rewrite orb_false_r, (Hs m eq_refl). split; [intros H; split; [exact H|discriminate]|tauto].
    - split; [discriminate|]. intros [_ H]. contradiction.
  Qed.
  Lemma part_all x d : exec_sat x -> forallb (fun p => mem d (fst p)) (part (resv x)) = true <-> (neutral found x \/ sat found d x).
  Proof.
    intros (r & Hr & Hn & Hs). rewrite (resv_ok x r Hr), <- Hn. destruct r as [m|]; cbn [part forallb fst].
    - rewrite andb_true_r, (Hs m eq_refl). split; [right; assumption|intros [H|H]; [discriminate|exact H]].
    - split; auto.
  Qed.
  Lemma sat_neutral x d : neutral found x -> ~ sat found d x.
  Proof. destruct x; cbn; intros H (m & v & E & _) || intros []; congruence. Qed.

  Lemma exec_documents n : (executable (strip n) -> leaves_ok n -> exec_sat (strip n)).
  Proof.
    induction n as [w|ws|w|m IH|l IH|l IH] using node_induction; intros He Hl; cbn [strip] in *.
    1-3: apply leaf_exec_sat; [apply Hl; left; reflexivity|exact I].
    - destruct m; try (apply IH; [exact He|exact Hl]). destruct He.
    - apply executable_and in He as Hc.
      assert (Hx : Forall (fun x => exec_sat (strip x)) l).
      { apply Forall_forall. intros x Hin. rewrite Forall_forall in IH, Hc. apply IH; [exact Hin|apply Hc, Hin|].
        apply (leaves_ok_in l (NAnd l)); auto. }
      unfold exec_sat. rewrite exec_NAnd, and_loop_ok by (eapply Forall_impl; [|exact Hx]; intros x (r & Hr & _); eauto). cbn [bind app].
      unfold and_combine. destruct (mass_inter_keys (map (fun p => (Some (fst p), snd p)) (flat_map pos_part l))) as (s & -> & Hs).
      rewrite not_none_some in Hs. cbn [bind].
      assert (Hpos : forall d, mem d s = true <-> (exists x, In x l /\ is_NotNode x = false /\ ~ neutral found x) /\
                 Forall (fun x => is_NotNode x = true \/ neutral found x \/ sat found d x) l).
      { intros d. rewrite Hs, andb_true_iff. apply ZifyClasses.and_morph.
        - rewrite negb_true_iff. split.
          + intros H. assert (Hne : flat_map pos_part l <> []) by (destruct (flat_map pos_part l); [discriminate|discriminate]).
            assert (Hex : exists x, In x l /\ pos_part x <> []).
            { clear -Hne. induction l as [|x l IH]; [contradiction|]. cbn [flat_map] in Hne. destruct (pos_part x) eqn:E.
              - destruct IH as (y & Hy & H); [exact Hne|]. exists y. split; [right; exact Hy|exact H].
              - exists x. split; [left; reflexivity|]. rewrite E. discriminate. }
            destruct Hex as (x & Hin & Hp). exists x. split; [exact Hin|]. rewrite Forall_forall in Hx. specialize (Hx x Hin).
            destruct x; cbn [is_NotNode pos_part strip] in *; try (split; [reflexivity|]; rewrite <- part_neutral by exact Hx; exact Hp). contradiction.
          + intros (x & Hin & Hn & Hne). destruct (flat_map pos_part l) eqn:E; [|reflexivity]. exfalso.
            assert (Hp : pos_part x = []).
            { destruct (pos_part x) as [|p ps] eqn:Ep; [reflexivity|]. exfalso. assert (Hi : In p (flat_map pos_part l)) by (apply in_flat_map; exists x; split; [exact Hin|rewrite Ep; left; reflexivity]).
              rewrite E in Hi. destruct Hi. }
            apply Hne. rewrite Forall_forall in Hx. specialize (Hx x Hin). destruct x; cbn [is_NotNode pos_part strip] in *; try discriminate; apply part_neutral; assumption.
        - rewrite forallb_flat_map, forallb_forall, Forall_forall. rewrite Forall_forall in Hx. split; intros H x Hin; specialize (H x Hin); specialize (Hx x Hin).
          + destruct x; cbn [is_NotNode pos_part strip] in *; try (right; apply part_all; assumption). left; reflexivity.
          + destruct x; cbn [is_NotNode pos_part strip] in *; try reflexivity; (destruct H as [H|H]; [discriminate|]; apply part_all; assumption). }
      assert (Hneg : forall d, existsb (fun p => mem d (fst p)) (flat_map neg_part l) = true <-> exists m, In (NNot m) l /\ sat found d m).
      { intros d. rewrite existsb_flat_map, existsb_exists. rewrite Forall_forall in Hx. split.
        - intros (x & Hin & H). specialize (Hx x Hin). destruct x; cbn [neg_part strip] in *; try discriminate. exists x. split; [exact Hin|].
          apply (part_mem x d Hx) in H. apply H.
        - intros (m & Hin & H). exists (NNot m). split; [exact Hin|]. specialize (Hx _ Hin). cbn [strip neg_part] in *. apply part_mem; [exact Hx|].
          split; [exact H|]. intros Hn. exact (sat_neutral m d Hn H). }
      assert (Hsat : forall d, sat found d (NAnd l) <-> mem d s = true /\ existsb (fun p => mem d (fst p)) (flat_map neg_part l) <> true).
      { intros d. rewrite sat_and, Hpos, Hneg, and_assoc. apply and_iff_compat_l. split.
        - intros H. rewrite Forall_forall in H. split.
          + apply Forall_forall. intros x Hin. specialize (H x Hin). tauto.
          + intros (m & Hin & Hm). destruct (H _ Hin) as [[]|Hn]. exact (Hn Hm).
        - intros [H Hn]. rewrite Forall_forall in H |- *. intros x Hin. destruct (H x Hin) as [Hx'|Hx']; [|exact Hx'].
          destruct x; try discriminate. right. intros Hm. apply Hn. eauto. }
      destruct (flat_map neg_part l) as [|q Q] eqn:En.
      + exists (Some s). splits; [reflexivity|split; [discriminate|intros []]|]. intros m [= <-] d. rewrite Hsat. cbn [existsb]. split; [intros H; split; [exact H|discriminate]|tauto].
      + destruct (mass_union_keys (q :: Q)) as (u & -> & Hu). cbn [bind]. eexists. splits; [reflexivity|split; [discriminate|intros []]|].
        intros m [= <-] d. rewrite Hsat, mem_mdiff, Hu, andb_true_iff, negb_true_iff, not_true_iff_false. reflexivity.
    - apply exec_or in He as [Hne Hc].
      assert (Hx : Forall exec_sat l).
      { apply Forall_forall. intros x Hin. rewrite Forall_forall in IH, Hc. specialize (IH x Hin). specialize (Hc x Hin).
        destruct (leaves_ok_in l (NOr l) x) as [H1 H2]; auto. destruct x; try (apply IH; [exact Hc|exact H2]). destruct Hc. }
      unfold exec_sat. rewrite exec_NOr, or_loop_ok by (eapply Forall_impl; [|exact Hx]; intros x (r & Hr & _); eauto). cbn [bind app].
      destruct (mass_union_keys (flat_map (fun x => part (resv x)) l)) as (u & -> & Hu). cbn [bind].
      exists (Some u). splits; [reflexivity|split; [discriminate|intros []]|]. intros m [= <-] d.
      rewrite Hu, existsb_flat_map, existsb_exists, sat_or. rewrite Forall_forall in Hx. split; intros (x & Hin & H); exists x; (split; [exact Hin|]); specialize (Hx x Hin).
      + apply (part_mem x d Hx) in H. apply H.
      + apply part_mem; [exact Hx|]. split; [exact H|]. intros Hn. exact (sat_neutral x d Hn H).
  Qed.
  Lemma execute_documents n : executable n -> leaves_ok n -> exec_sat n.
  Proof. intros He Hl. pose proof (exec_documents n) as H. destruct n; try (apply H; assumption). destruct He. Qed.

  (** ** The scores, in exact arithmetic *)
  Context {EF : ExactArith F}.
  Definition exec_score (n : node) : Prop := exists r, exec n = Ok r /\ (r = None <-> neutral found n) /\
    forall m, r = Some m -> forall d, get m d = score found d n.
  Local Notation gets d L := (map (fun p : wmap * F => get (fst p) d) L).
  Definition unit_weights (L : list (wmap * F)) : Prop := Forall (fun p => snd p = f1) L.
  Lemma contribs_gets L d : unit_weights L -> fsum (contribs L d) = opt_sum (gets d L).
  Proof.
    intros H. unfold contribs, opt_sum. f_equal. induction H as [|[m w] L Hw _ IH]; [reflexivity|]. cbn [map concat flat_map fst snd] in *. subst w.
    rewrite IH. destruct (get m d); [rewrite fmul_1_r|]; reflexivity.
  Qed.
  Lemma in_all_gets (L : list (wmap * F)) d : in_all L d <-> forallb is_some (gets d L) = true.
  Proof.
    unfold in_all. rewrite Forall_forall, forallb_forall. split.
    - intros H o Ho. apply in_map_iff in Ho as (p & <- & Hp). destruct (H p Hp) as [v ->]. reflexivity.
    - intros H p Hp. specialize (H (get (fst p) d) (in_map (fun p => get (fst p) d) L p Hp)). destruct (get (fst p) d); [eauto|discriminate].
  Qed.
  Lemma in_some_gets (L : list (wmap * F)) d : in_some L d <-> existsb is_some (gets d L) = true.
  Proof.
    unfold in_some. rewrite Exists_exists, existsb_exists. split.
    - intros (p & Hp & v & Hv). exists (Some v). split; [|reflexivity]. apply in_map_iff. eauto.
    - intros (o & Ho & Hs). apply in_map_iff in Ho as (p & <- & Hp). exists p. split; [exact Hp|]. destruct (get (fst p) d); [eauto|discriminate].
  Qed.
  Definition pos_scores d := (fix go l := match l with
                                | [] => []
                                | NNot _ :: l' => go l'
                                | x :: l' => if neutralb found x then go l' else score found d x :: go l'
                                end).
  Definition neg_scores d := (fix go l := match l with [] => [] | NNot m :: l' => score found d m :: go l' | _ :: l' => go l' end).
  Lemma score_and d l : score found d (NAnd l) =
    if negb (match pos_scores d l with [] => true | _ => false end) && forallb is_some (pos_scores d l) && negb (existsb is_some (neg_scores d l))
    then Some (opt_sum (pos_scores d l)) else None.
  Proof. reflexivity. Qed.
  Lemma score_or d l : score found d (NOr l) =
    if existsb is_some (map (score found d) l) then Some (opt_sum (map (score found d) l)) else None.
  Proof.
    cbn [score]. replace ((fix go l := match l with [] => [] | x :: l' => score found d x :: go l' end) l) with (map (score found d) l); [reflexivity|].
    induction l as [|x l IH]; cbn; [reflexivity|]. rewrite IH. reflexivity.
  Qed.
  Lemma neutralb_iff x : neutralb found x = true <-> neutral found x.
  Proof. destruct x; cbn; try (destruct (found _); cbn; split; congruence); split; try discriminate; intros []. Qed.
  Lemma part_gets x d : exec_score x -> gets d (part (resv x)) = if neutralb found x then [] else [score found d x].
  Proof.
    intros (r & Hr & Hn & Hs). rewrite (resv_ok x r Hr). destruct (neutralb found x) eqn:E.
    - apply neutralb_iff in E. apply Hn in E as ->. reflexivity.
    - destruct r as [m|]; cbn [part map fst].
      + rewrite (Hs m eq_refl). reflexivity.
      + assert (neutralb found x = true) by (apply neutralb_iff, Hn; reflexivity). congruence.
  Qed.
  Lemma score_neutral x d : neutral found x -> score found d x = None.
  Proof. destruct x; cbn; unfold score_leaf; intros H; try rewrite H; try reflexivity; destruct H. Qed.
  Lemma gets_pos d l : Forall (fun x => exec_score (strip x)) l -> gets d (flat_map pos_part l) = pos_scores d l.
  Proof.
    induction 1 as [|x l Hx _ IH]; [reflexivity|]. cbn [flat_map]. rewrite map_app, IH.
    destruct x; cbn [pos_part strip pos_scores map app] in *; try reflexivity;
      rewrite part_gets by exact Hx; destruct (neutralb found _); reflexivity.
  Qed.
  Lemma existsb_neg d l : Forall (fun x => exec_score (strip x)) l ->
    existsb is_some (gets d (flat_map neg_part l)) = existsb is_some (neg_scores d l).
  Proof.
    induction 1 as [|x l Hx _ IH]; [reflexivity|]. cbn [flat_map]. rewrite map_app, existsb_app, IH.
    destruct x; cbn [neg_part strip neg_scores map app existsb] in *; try reflexivity.
    rewrite part_gets by exact Hx. destruct (neutralb found x) eqn:E; cbn [existsb]; [|rewrite orb_false_r; reflexivity].
    apply neutralb_iff in E. rewrite (score_neutral x d E). reflexivity.
  Qed.
  Lemma alts_gets d l : Forall exec_score l ->
    existsb is_some (gets d (flat_map (fun x => part (resv x)) l)) = existsb is_some (map (score found d) l) /\
    opt_sum (gets d (flat_map (fun x => part (resv x)) l)) = opt_sum (map (score found d) l).
  Proof.
    induction 1 as [|x l Hx _ [IH1 IH2]]; [auto|]. cbn [flat_map map existsb]. rewrite map_app, existsb_app, IH1.
    rewrite part_gets by exact Hx. unfold opt_sum in *. rewrite flat_map_app. destruct (neutralb found x) eqn:E; cbn [existsb flat_map app orb].
    - apply neutralb_iff in E. rewrite (score_neutral x d E). auto.
    - rewrite orb_false_r. split; [reflexivity|]. destruct (score found d x); cbn [app]; [|exact IH2].
      unfold fsum in *. cbn [fold_right]. f_equal. exact IH2.
  Qed.
  Lemma unit_parts {A} (g : A -> list (wmap * F)) l : (forall x, unit_weights (g x)) -> unit_weights (flat_map g l).
  Proof. intros H. induction l as [|x l IH]; [constructor|]. apply Forall_app. split; [apply H|exact IH]. Qed.
  Lemma unit_part r : unit_weights (part r).
  Proof. destruct r; repeat constructor. Qed.

  Lemma exec_scores n : executable (strip n) -> leaves_ok n -> exec_score (strip n).
  Proof.
    induction n as [w|ws|w|m IH|l IH|l IH] using node_induction; intros He Hl; cbn [strip] in *.
    1-3: specialize (Hl _ (or_introl eq_refl)); cbn in Hl; eexists; split; [exact Hl|]; split; [reflexivity|]; intros m Hm d; cbn; unfold score_leaf; rewrite Hm; reflexivity.
    - destruct m; try (apply IH; [exact He|exact Hl]). destruct He.
    - apply executable_and in He as Hc.
      assert (Hx : Forall (fun x => exec_score (strip x)) l).
      { apply Forall_forall. intros x Hin. rewrite Forall_forall in IH, Hc. apply IH; [exact Hin|apply Hc, Hin|].
        apply (leaves_ok_in l (NAnd l)); auto. }
      unfold exec_score. rewrite exec_NAnd, and_loop_ok by (eapply Forall_impl; [|exact Hx]; intros x (r & Hr & _); eauto). cbn [bind app].
      unfold and_combine. destruct (mass_inter_spec (map (fun p => (Some (fst p), snd p)) (flat_map pos_part l))) as (s & -> & Hs).
      rewrite not_none_some in Hs. cbn [bind].
      assert (Hg : forall d, get s d = if negb (match pos_scores d l with [] => true | _ => false end) && forallb is_some (pos_scores d l)
                                       then Some (opt_sum (pos_scores d l)) else None).
      { intros d. specialize (Hs d). rewrite in_all_gets in Hs. rewrite (contribs_gets (flat_map pos_part l) d) in Hs
          by (apply unit_parts; intros [| | | | |]; try apply unit_part; constructor).
        assert (Hnil : flat_map pos_part l = [] <-> pos_scores d l = []).
        { rewrite <- gets_pos by exact Hx. destruct (flat_map pos_part l); cbn; split; congruence. }
        rewrite Hnil in Hs. rewrite (gets_pos d l Hx) in Hs. destruct Hs as [H1 H2]. destruct (pos_scores d l) as [|o os]; [apply H2; left; reflexivity|].
        cbn [negb andb]. destruct (forallb is_some (o :: os)); [apply H1; split; [discriminate|reflexivity]|apply H2; right; discriminate]. }
      destruct (flat_map neg_part l) as [|q Q] eqn:En.
      + exists (Some s). splits; [reflexivity|split; [discriminate|intros []]|]. intros m [= <-] d. rewrite Hg, score_and, <- (existsb_neg d l Hx), En.
        cbn [map existsb negb]. rewrite andb_true_r. reflexivity.
      + destruct (mass_union_spec (q :: Q)) as (u & -> & Hu). cbn [bind]. eexists. splits; [reflexivity|split; [discriminate|intros []]|].
        intros m [= <-] d. rewrite score_and, <- (existsb_neg d l Hx), En. destruct (Hu d) as [Hu1 Hu2]. rewrite in_some_gets in Hu1, Hu2.
        unfold mdiff. rewrite get_merge by reflexivity. rewrite Hg. destruct (existsb is_some (gets d (q :: Q))).
        * rewrite Hu1 by reflexivity. cbn [negb]. rewrite andb_false_r. destruct (_ && _); reflexivity.
        * rewrite Hu2 by discriminate. cbn [negb]. rewrite andb_true_r. destruct (_ && _); reflexivity.
    - apply exec_or in He as [Hne Hc].
      assert (Hx : Forall exec_score l).
      { apply Forall_forall. intros x Hin. rewrite Forall_forall in IH, Hc. specialize (IH x Hin). specialize (Hc x Hin).
        destruct (leaves_ok_in l (NOr l) x) as [H1 H2]; auto. destruct x; try (apply IH; [exact Hc|exact H2]). destruct Hc. }
      unfold exec_score. rewrite exec_NOr, or_loop_ok by (eapply Forall_impl; [|exact Hx]; intros x (r & Hr & _); eauto). cbn [bind app].
      destruct (mass_union_spec (flat_map (fun x => part (resv x)) l)) as (u & -> & Hu). cbn [bind].
      exists (Some u). splits; [reflexivity|split; [discriminate|intros []]|]. intros m [= <-] d. rewrite score_or.
      destruct (Hu d) as [H1 H2]. rewrite in_some_gets in H1, H2. rewrite contribs_gets in H1 by (apply unit_parts; intros; apply unit_part).
      destruct (alts_gets d l Hx) as [E1 E2]. rewrite E1 in H1, H2. rewrite E2 in H1. destruct (existsb is_some (map (score found d) l)); [apply H1; reflexivity|apply H2; discriminate].
  Qed.
  Lemma execute_scores n : executable n -> leaves_ok n -> exec_score n.
  Proof. intros He Hl. pose proof (exec_scores n) as H. destruct n; try (apply H; assumption). destruct He. Qed.
End Tree.
