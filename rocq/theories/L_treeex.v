(** * Consequences about executing parsed queries *)
From Verif Require Import M_tree S_tree S_setops M_setops L_setops S_parser L_query L_tree Arith SMap Ord.

Lemma leaves_leaf n : forall x, In x (leaves n) -> match x with NAtom _ | NPhrase _ | NGlob _ => True | _ => False end.
Proof.
  induction n as [w|ws|w|m IH|l IH|l IH] using node_induction; cbn [leaves]; try (intros x [<-|[]]; exact I); try exact IH.
  all: intros x Hx; apply in_flat_map in Hx as (y & Hy & Hx); rewrite Forall_forall in IH; exact (IH y Hy x Hx).
Qed.

Section Tree.
  Context {F : Type} {AF : Arith F}.
  Local Notation wmap := (smap Z F).
  Variable search : str -> res (option wmap).
  Variable search_phrase : list str -> res (option wmap).
  Variable search_glob : str -> res (option wmap).
  Local Notation exec := (executeQuery search search_phrase search_glob).

  Lemma leaves_found found n : (forall x, In x (leaves n) -> exec x = Ok (found x)) -> leaves_ok search search_phrase search_glob found n.
  Proof. intros H x Hx. specialize (H x Hx). pose proof (leaves_leaf n x Hx) as Hl. destruct x; try destruct Hl; exact H. Qed.

  Lemma tree_documents n found : executable n -> (forall x, In x (leaves n) -> exec x = Ok (found x)) ->
    exists r, exec n = Ok r /\ (r = None <-> neutral found n) /\
      forall m, r = Some m -> forall d, mem d m = true <-> sat found d n.
  Proof. intros He Hf. apply execute_documents; [exact He|]. apply leaves_found, Hf. Qed.
  Lemma tree_scores (EF : ExactArith F) n found : executable n -> (forall x, In x (leaves n) -> exec x = Ok (found x)) ->
    exists r, exec n = Ok r /\ (r = None <-> neutral found n) /\
      forall m, r = Some m -> forall d, get m d = score found d n.
  Proof. intros He Hf. apply execute_scores; [exact EF|exact He|]. apply leaves_found, Hf. Qed.

  (** misplaced NOTs *)
  Lemma misplaced_and l : misplaced (NAnd l) <-> Exists (fun x => misplaced (strip x)) l.
  Proof.
    rewrite Exists_exists. split.
    - intros H. inversion H as [| l' x Hin Hn Hm | l' m Hin Hm |]; subst.
      + exists x. split; [exact Hin|]. destruct x; try discriminate; exact Hm.
      + exists (NNot m). split; [exact Hin|exact Hm].
    - intros (x & Hin & H). destruct x; cbn [strip] in H; solve [eapply mis_and; [exact Hin|reflexivity|exact H] | eapply mis_and_not; eassumption].
  Qed.
  Lemma misplaced_or l : misplaced (NOr l) <-> Exists misplaced l.
  Proof.
    rewrite Exists_exists. split; [|intros (x & Hin & H); eapply mis_or; eassumption].
    intros H. inversion H as [| | |l' x Hin Hm]; subst. exists x. auto.
  Qed.
  Definition settled (n : node) : Prop :=
    (misplaced n /\ exec n = Raise QueryError) \/ (~ misplaced n /\ exists r, exec n = Ok r).
  Lemma settled_list (f : node -> node) l : Forall (fun x => settled (f x)) l ->
    (Exists (fun x => misplaced (f x)) l /\ Exists (fun x => exec (f x) = Raise QueryError) l /\
     Forall (fun x => exec (f x) = Raise QueryError \/ exists r, exec (f x) = Ok r) l) \/
    (~ Exists (fun x => misplaced (f x)) l /\ Forall (fun x => exists r, exec (f x) = Ok r) l).
  Proof.
    induction 1 as [|x l Hx Hl IH].
    - right. split; [intros H; inversion H|constructor].
    - destruct IH as [(IH1 & IH2 & IH3)|[IH1 IH2]].
      + left. splits; [right; exact IH1|right; exact IH2|]. constructor; [|exact IH3]. destruct Hx as [[_ Hx]|[_ Hx]]; auto.
      + destruct Hx as [[Hm Hx]|[Hm Hx]].
        * left. splits; [left; exact Hm|left; exact Hx|]. constructor; [left; exact Hx|].
          eapply Forall_impl; [|exact IH2]. intros y Hy. right. exact Hy.
        * right. split; [|constructor; assumption]. intros H. inversion H; contradiction.
  Qed.
  Lemma and_loop_raise l : Exists (fun x => exec (strip x) = Raise QueryError) l ->
    Forall (fun x => exec (strip x) = Raise QueryError \/ exists r, exec (strip x) = Ok r) l ->
    forall L N, and_loop search search_phrase search_glob l L N = Raise QueryError.
  Proof.
    induction l as [|x l IH]; intros He Hf L N; [inversion He|]. apply Forall_cons_iff in Hf as [[Hx|[r Hx]] Hf].
    - destruct x; cbn [and_loop strip] in *; rewrite Hx; reflexivity.
    - assert (He' : Exists (fun x => exec (strip x) = Raise QueryError) l) by (inversion He; [congruence|assumption]).
      destruct x; cbn [and_loop strip] in *; rewrite Hx; cbn [bind]; apply IH; assumption.
  Qed.
  Lemma or_loop_raise l : Exists (fun x => exec x = Raise QueryError) l ->
    Forall (fun x => exec x = Raise QueryError \/ exists r, exec x = Ok r) l ->
    forall L, or_loop search search_phrase search_glob l L = Raise QueryError.
  Proof.
    induction l as [|x l IH]; intros He Hf L; [inversion He|]. apply Forall_cons_iff in Hf as [[Hx|[r Hx]] Hf].
    - cbn [or_loop]. rewrite Hx. reflexivity.
    - assert (He' : Exists (fun x => exec x = Raise QueryError) l) by (inversion He; [congruence|assumption]).
      cbn [or_loop]. rewrite Hx. cbn [bind]. apply IH; assumption.
  Qed.
  Lemma tree_settled n : (forall x, In x (leaves n) -> exists r, exec x = Ok r) -> settled n /\ settled (strip n).
  Proof.
    induction n as [w|ws|w|m IH|l IH|l IH] using node_induction; intros Hl; cbn [strip].
    1-3: split; right; (split; [intros H; inversion H|apply Hl; left; reflexivity]).
    - split; [left; split; [constructor|reflexivity]|]. apply IH, Hl.
    - assert (Hs : Forall (fun x => settled (strip x)) l).
      { rewrite Forall_forall in IH |- *. intros x Hx. apply IH; [exact Hx|]. intros y Hy. apply Hl. cbn [leaves]. apply in_flat_map. eauto. }
      enough (settled (NAnd l)) by auto. apply settled_list in Hs as [(H1 & H2 & H3)|[H1 H2]].
      + left. split; [apply misplaced_and, H1|]. rewrite exec_NAnd, and_loop_raise by assumption. reflexivity.
      + right. split; [rewrite misplaced_and; exact H1|]. rewrite exec_NAnd, and_loop_ok by exact H2. cbn [bind app]. unfold and_combine.
        destruct (mass_inter_keys (map (fun p => (Some (fst p), snd p)) (flat_map (pos_part search search_phrase search_glob) l))) as (s & -> & _). cbn [bind].
        destruct (flat_map (neg_part _ _ _) l) as [|p N]; [eauto|]. destruct (mass_union_keys (p :: N)) as (u & -> & _). cbn [bind]. eauto.
    - assert (Hs : Forall (fun x => settled ((fun y => y) x)) l).
      { rewrite Forall_forall in IH |- *. intros x Hx. apply IH; [exact Hx|]. intros y Hy. apply Hl. cbn [leaves]. apply in_flat_map. eauto. }
      enough (settled (NOr l)) by auto. apply settled_list in Hs as [(H1 & H2 & H3)|[H1 H2]].
      + left. split; [apply misplaced_or, H1|]. rewrite exec_NOr, or_loop_raise by assumption. reflexivity.
      + right. split; [rewrite misplaced_or; exact H1|]. rewrite exec_NOr, or_loop_ok by exact H2. cbn [bind app].
        match goal with |- context [mass_weightedUnion ?x] => destruct (mass_union_keys x) as (u & -> & _) end. cbn [bind]. eauto.
  Qed.
  Lemma tree_misplaced n : (forall x, In x (leaves n) -> exists r, exec x = Ok r) ->
    (exec n = Raise QueryError <-> misplaced n) /\ ((exists r, exec n = Ok r) <-> ~ misplaced n).
  Proof.
    intros H. destruct (tree_settled n H) as [[[H1 H2]|[H1 [r H2]]] _]; rewrite H2; (split; split).
    - intros _. exact H1.
    - reflexivity.
    - intros [r E]. discriminate.
    - intros E. contradiction.
    - discriminate.
    - intros E. contradiction.
    - intros _. exact H1.
    - intros _. eauto.
  Qed.

  Lemma tree_raises n e : executable n -> exec n = Raise e -> exists x, In x (leaves n) /\ exec x = Raise e.
  Proof.
    enough (H : forall n e, executable (strip n) -> exec (strip n) = Raise e -> exists x, In x (leaves n) /\ exec x = Raise e).
    { intros He Hr. specialize (H n e). destruct n; try (apply H; assumption). destruct He. }
    clear n e. intros n e. induction n as [w|ws|w|m IH|l IH|l IH] using node_induction; cbn [strip]; intros He Hr.
    1-3: eexists; split; [left; reflexivity|exact Hr].
    - cbn [leaves]. destruct m; try (apply IH; [exact He|exact Hr]). destruct He.
    - apply executable_and in He. rewrite exec_NAnd in Hr.
      assert (Hl : forall L N, and_loop search search_phrase search_glob l L N = Raise e -> exists x, In x (flat_map leaves l) /\ exec x = Raise e).
      { clear Hr. induction IH as [|x l Hx Hl IHl]; intros L N H; [discriminate|]. apply Forall_cons_iff in He as [He1 He2].
        assert (Hg : exec (strip x) = Raise e \/ (exists r, exec (strip x) = Ok r /\ exists L N, and_loop search search_phrase search_glob l L N = Raise e)).
        { destruct x; cbn [and_loop strip] in *;
            match type of H with bind ?m _ = _ => destruct m as [r|e'] eqn:E; cbn [bind] in H; [right; exists r; split; [reflexivity|eauto]|left; congruence] end. }
        cbn [flat_map]. destruct Hg as [Hg|(r & _ & L' & N' & Hg)].
        - destruct (Hx He1 Hg) as (y & Hy & Ey). exists y. split; [apply in_or_app; left; exact Hy|exact Ey].
        - destruct (IHl He2 L' N' Hg) as (y & Hy & Ey). exists y. split; [apply in_or_app; right; exact Hy|exact Ey]. }
      destruct (and_loop _ _ _ l [] []) as [[L N]|e'] eqn:E; cbn [bind] in Hr.
      + exfalso. unfold and_combine in Hr. destruct (mass_inter_keys (map (fun p => (Some (fst p), snd p)) L)) as (s & Hs & _). rewrite Hs in Hr. cbn [bind] in Hr.
        destruct N; [discriminate|]. destruct (mass_union_keys (p :: N)) as (u & Hu & _). rewrite Hu in Hr. discriminate.
      + injection Hr as ->. exact (Hl _ _ E).
    - apply exec_or in He as [_ He]. rewrite exec_NOr in Hr.
      assert (Hl : forall L, or_loop search search_phrase search_glob l L = Raise e -> exists x, In x (flat_map leaves l) /\ exec x = Raise e).
      { clear Hr. induction IH as [|x l Hx Hl IHl]; intros L H; [discriminate|]. apply Forall_cons_iff in He as [He1 He2].
        cbn [flat_map or_loop] in *. destruct (exec x) as [r|e'] eqn:E; cbn [bind] in H.
        - destruct (IHl He2 _ H) as (y & Hy & Ey). exists y. split; [apply in_or_app; right; exact Hy|exact Ey].
        - injection H as ->. assert (Hs : strip x = x) by (destruct x; try reflexivity; destruct He1). rewrite Hs in Hx.
          destruct (Hx He1 E) as (y & Hy & Ey). exists y. split; [apply in_or_app; left; exact Hy|exact Ey]. }
      destruct (or_loop _ _ _ l []) as [L|e'] eqn:E; cbn [bind] in Hr.
      + exfalso. destruct (mass_union_keys L) as (u & Hu & _). rewrite Hu in Hr. discriminate.
      + injection Hr as ->. exact (Hl _ E).
  Qed.
End Tree.
