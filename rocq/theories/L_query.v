(** * Lemmas about whole queries *)
From Verif Require Import Sort Regex SMap L_token L_parser S_parser Ord M_parser Ord.

Lemma app_end_inv {A} (x : A) a b r : a ++ [x] = b ++ x :: r -> ~ In x a -> r = [] /\ a = b.
Proof.
  intros H Hx. destruct r as [|y r _] using rev_ind.
  - apply app_inj_tail in H as [-> _]. auto.
  - rewrite app_comm_cons, app_assoc in H. apply app_inj_tail in H as [-> _]. exfalso. apply Hx, in_or_app. right; left; reflexivity.
Qed.

Section Query.
  Variable upper : str -> str.
  Variable parse_terms : str -> list str.
  Variable is_glob : str -> bool.
  Local Notation parse_tokens := (parse_tokens upper parse_terms is_glob).
  Local Notation start := (start upper).
  Local Notation symbols := (symbols upper).
  Local Notation leaf := (leaf parse_terms is_glob).
  Local Notation leaves_of := (leaves_of parse_terms is_glob).
  Local Notation outcome := (outcome parse_terms is_glob).
  Local Notation m_term := (m_term parse_terms is_glob).
  Local Notation m_and := (m_and parse_terms is_glob).
  Local Notation m_ops := (m_ops parse_terms is_glob).
  Local Notation m_or := (m_or parse_terms is_glob).
  Local Notation m_ors := (m_ors parse_terms is_glob).
  Local Notation ign_of := (ign_of parse_terms).

  Lemma ttype_not_eof t : ttype_of upper t <> TyEOF.
  Proof. unfold ttype_of. repeat destruct (eqb _ _); discriminate. Qed.
  Lemma start_syms toks : syms (start toks) = symbols toks ++ [SEOF].
  Proof. rewrite symbols_types. unfold syms, start, M_parser.start. cbn [rest]. rewrite map_app, map_map. reflexivity. Qed.
  Lemma symbols_eof toks : ~ In SEOF (symbols toks).
  Proof.
    rewrite symbols_types. intros H. apply in_map_iff in H as (t & H & _). apply sym_type in H. cbn in H. exact (ttype_not_eof t H).
  Qed.
  Lemma symbols_atoms toks a : In (SAtom a) (symbols toks) -> In a toks.
  Proof.
    rewrite symbols_types. intros H. apply in_map_iff in H as (t & H & Hin). apply sym_type in H. injection H as _ ->. exact Hin.
  Qed.
  Lemma start_ok hy toks : Forall (fun t => t <> []) toks ->
    (hy = false -> forall a, In (SAtom a) (symbols toks) -> negated a = false) -> ok_st hy (start toks).
  Proof.
    intros Hne Hn. split; unfold start, M_parser.start; cbn [rest].
    - rewrite map_app. apply in_or_app. right; left; reflexivity.
    - apply Forall_app. split; [|repeat constructor; discriminate]. apply Forall_forall. intros t Ht.
      apply in_map_iff in Ht as (s & <- & Hs). intros Hty. cbn [fst snd] in *. rewrite Forall_forall in Hne. split; [apply Hne, Hs|].
      intros Hf. apply (Hn Hf). rewrite symbols_types. apply in_map_iff. exists s. split; [|exact Hs]. unfold sym_of. cbn [fst snd]. rewrite Hty. reflexivity.
  Qed.

  (** C45 *)
  Lemma parse_total hy toks : Forall (fun t => t <> []) toks ->
    (hy = false -> forall a, In (SAtom a) (symbols toks) -> negated a = false) ->
    match parse_tokens toks with
    | POk _ => True
    | PErr e => e = PRequired \/ e = PPositive /\ hy = true \/ e = PCommon
    end.
  Proof.
    intros Hne Hn. unfold M_parser.parse_tokens. pose proof (start_ok hy toks Hne Hn) as Hok.
    assert (Hlen : len (start toks) = S (length toks)).
    { unfold len, M_parser.start. cbn [rest]. rewrite app_length, map_length. apply Nat.add_1_r. }
    destruct (parser_total parse_terms is_glob hy (6 * length toks + 12)) as (H & _).
    specialize (H (start toks) Hok ltac:(lia)). destruct (parseOrExpr _ _ _ _) as [[o st]|e].
    - cbn [pbind]. destruct H as [[Hin Hf] _]. unfold require, check. destruct (rest st) as [|[ty s] r] eqn:Er; [destruct Hin|].
      cbn [pbind]. destruct (ttype_eqb ty TyEOF); cbn [pbind].
      + destruct o; cbv beta iota; auto.
      + rewrite Er. cbn [pbind]. auto.
    - cbn [pbind]. destruct H as [H|H]; auto.
  Qed.

  Lemma no_common_all n :
    (forall st, parseOrExpr parse_terms is_glob n st <> PErr PCommon) /\
    (forall L st, orLoop parse_terms is_glob n L st <> PErr PCommon) /\
    (forall st, parseAndExpr parse_terms is_glob n st <> PErr PCommon) /\
    (forall L N st, andLoop parse_terms is_glob n L N st <> PErr PCommon) /\
    (forall st, parseNotExpr parse_terms is_glob n st <> PErr PCommon) /\
    (forall st, parseTerm parse_terms is_glob n st <> PErr PCommon).
  Proof.
    assert (Hb : forall A B (m : pres A) (f : A -> pres B), m <> PErr PCommon -> (forall a, f a <> PErr PCommon) -> pbind m f <> PErr PCommon).
    { intros A B [a|e] f H1 H2; cbn; [apply H2|]. congruence. }
    assert (Hc : forall ty st, check ty st <> PErr PCommon).
    { intros ty st. unfold check. destruct (rest st) as [|[ty' s] r]; [discriminate|]. destruct (ttype_eqb ty' ty); discriminate. }
    assert (Hr : forall ty st, require ty st <> PErr PCommon).
    { intros ty st. apply Hb; [apply Hc|]. intros [[] st']; [discriminate|]. destruct (rest st'); discriminate. }
    assert (Ha : forall st, parseAtom parse_terms is_glob st <> PErr PCommon).
    { intros st. apply Hb.
      - unfold get_tok. destruct (rest st) as [|[ty' s] r]; [discriminate|]. apply Hb; [apply Hr|discriminate].
      - intros [s st']. destruct (parse_terms s); [discriminate|]. destruct s; discriminate. }
    assert (Hl : forall m L st, atomLoop parse_terms is_glob m L st <> PErr PCommon).
    { induction m as [|m IH]; intros L st; [discriminate|]. cbn [atomLoop]. apply Hb.
      - unfold peek. destruct (rest st) as [|[ty' s] r]; discriminate.
      - intros []; [|discriminate]. apply Hb; [apply Ha|]. intros [a st']. apply IH. }
    induction n as [|n (IO & IOL & IA & IAL & IN & IT)]; [splits; discriminate|]. splits.
    - intros st. rewrite or_S. apply Hb; [apply IA|]. intros [a st']. apply IOL.
    - intros L st. rewrite orl_S. apply Hb; [apply Hc|]. intros [[] st']; [|discriminate]. apply Hb; [apply IA|]. intros [a st'']. apply IOL.
    - intros st. rewrite and_S. apply Hb; [apply IT|]. intros [a st']. apply IAL.
    - intros L N st. rewrite andl_S. apply Hb; [apply Hc|]. intros [[] st'].
      + apply Hb; [apply IN|]. intros [[x|] st'']; [destruct (is_NotNode x)|]; apply IAL.
      + apply Hb; [apply Hc|]. intros [[] st'']; [|discriminate]. apply Hb; [apply IT|]. intros [[x|] st3]; apply IAL.
    - intros st. rewrite not_S. apply Hb; [apply Hc|]. intros [[] st']; [|apply IT]. apply Hb; [apply IT|]. intros [a st'']. discriminate.
    - intros st. rewrite term_S. apply Hb; [apply Hc|]. intros [[] st'].
      + apply Hb; [apply IO|]. intros [a st'']. apply Hb; [apply Hr|]. discriminate.
      + apply Hb; [apply Ha|]. intros [a st'']. apply Hb; [apply Hl|]. intros [l st3]. apply Hb; [|discriminate].
        unfold term_result. destruct (filter_none l); [discriminate|]. destruct (sort_nodes _) as [|x [|y z]]; [discriminate| |]; destruct (is_NotNode x); discriminate.
  Qed.

  (** a successful parse has read a derivable query *)
  Lemma parse_sound toks r : parse_tokens toks = r -> (exists x, r = POk x) \/ r = PErr PCommon ->
    exists c, u_or c = symbols toks.
  Proof.
    intros H Hr. unfold M_parser.parse_tokens in H. destruct (parseOrExpr _ _ _ (start toks)) as [[o st]|e] eqn:E.
    2:{ cbn [pbind] in H. subst r. destruct Hr as [[x Hr]|Hr]; [discriminate|]. injection Hr as ->. exfalso.
        exact (proj1 (no_common_all _) _ E). }
    cbn [pbind] in H. destruct (parser_sound parse_terms is_glob (6 * length toks + 12)) as (Hs & _). apply Hs in E as [c Hc].
    unfold require, check in H. destruct (rest st) as [|[ty s] rr] eqn:Er; cbn [pbind] in H.
    - subst r. destruct Hr as [[x Hr]|Hr]; discriminate.
    - destruct (ttype_eqb ty TyEOF) eqn:Et; cbn [pbind] in H.
      2:{ rewrite Er in H. subst r. destruct Hr as [[x Hr]|Hr]; discriminate. }
      apply ttype_eqb_eq in Et. subst ty. exists c. rewrite start_syms in Hc. unfold syms in Hc. rewrite Er in Hc. cbn [map] in Hc.
      change (sym_of (TyEOF, s)) with SEOF in Hc. apply app_end_inv in Hc as [_ ->]; [reflexivity|apply symbols_eof].
  Qed.

  (** C46: a derivable query is read as its syntax tree says *)
  Lemma parse_reads toks c : Forall (fun t => t <> []) toks -> u_or c = symbols toks ->
    parse_tokens toks = match outcome c with POk n => POk (n, ign_of (symbols toks)) | PErr e => PErr e end.
  Proof.
    intros Hne Hc. unfold M_parser.parse_tokens.
    destruct (reads_all parse_terms is_glob) as (_ & _ & _ & H & _).
    specialize (H c (6 * length toks + 12)%nat (map (fun t => (ttype_of upper t, t)) toks) [(TyEOF, kw_EOF)] []).
    assert (Hs : map sym_of (map (fun t => (ttype_of upper t, t)) toks) = u_or c).
    { rewrite map_map, Hc, symbols_types. reflexivity. }
    specialize (H Hs).
    assert (Ha : atoms_ne (u_or c)).
    { intros a Hin. rewrite Hc in Hin. apply symbols_atoms in Hin. rewrite Forall_forall in Hne. apply Hne, Hin. }
    specialize (H Ha). assert (Hst : stops c_or [(TyEOF, kw_EOF)]).
    { exists (TyEOF, kw_EOF), []. split; [reflexivity|]. cbn. intuition discriminate. }
    specialize (H Hst). unfold M_parser.start.
    assert (Hoof : ~ oof (parseOrExpr parse_terms is_glob (6 * length toks + 12)
      (mkPst (map (fun t => (ttype_of upper t, t)) toks ++ [(TyEOF, kw_EOF)]) []))).
    { pose proof (start_ok true toks Hne ltac:(discriminate)) as Hok.
      destruct (parser_total parse_terms is_glob true (6 * length toks + 12)) as (Ht & _).
      assert (Hlen : len (start toks) = S (length toks)).
      { unfold len, M_parser.start. cbn [rest]. rewrite app_length, map_length. apply Nat.add_1_r. }
      specialize (Ht (start toks) Hok ltac:(lia)). unfold M_parser.start in Ht. intros Ho. unfold oof in Ho. rewrite Ho in Ht.
      destruct Ht as [Ht|[Ht _]]; discriminate. }
    match goal with |- pbind ?m _ = _ => replace m with (reads parse_terms (m_or c) (u_or c) [(TyEOF, kw_EOF)] []) by (symmetry; exact (H Hoof)) end.
    unfold S_parser.outcome. destruct (m_or c) as [[n|]|]; cbn [reads pbind].
    - unfold require. rewrite check_hit. cbn [pbind ignored app]. rewrite Hc. reflexivity.
    - unfold require. rewrite check_hit. reflexivity.
    - reflexivity.
  Qed.

  (** C47 *)
  Definition below_and (x : node) : Prop := match x with NNot m => executable m | _ => executable x end.
  Lemma exec_and l : executable (NAnd l) <->
    (exists pos neg, l = pos ++ map NNot neg /\ pos <> [] /\ (forall x, In x pos -> is_NotNode x = false)) /\ Forall below_and l.
  Proof.
    cbn [executable]. apply and_iff_compat_l. induction l as [|x l IH]; [split; auto|].
    destruct x; (split; [intros [H1 H2]; constructor; [exact H1|apply IH, H2]|intros H; inversion H; subst; split; [assumption|apply IH; assumption]]).
  Qed.
  Lemma exec_or l : executable (NOr l) <-> l <> [] /\ Forall executable l.
  Proof.
    cbn [executable]. apply and_iff_compat_l. induction l as [|x l IH]; [split; auto|].
    split; [intros [H1 H2]; constructor; [exact H1|apply IH, H2]|intros H; inversion H; subst; split; [assumption|apply IH; assumption]].
  Qed.
  Definition all_exec (l : list node) : Prop := Forall (fun n => executable n) l.
  Lemma exec_not_NotNode n : executable n -> is_NotNode n = false.
  Proof. destruct n; cbn; tauto. Qed.
  Lemma join_and_exec pos neg n : pos <> [] -> all_exec pos -> all_exec neg -> join_and (pos ++ map NNot neg) = Some n -> executable n.
  Proof.
    intros Hne Hp Hn. destruct pos as [|p [|q pos]]; [contradiction| |]; cbn [app join_and].
    - destruct neg as [|r neg]; cbn [map]; intros [= <-]; [inversion Hp; assumption|]. apply exec_and. split.
      + exists [p], (r :: neg). splits; [reflexivity|discriminate|]. intros x [<-|[]]. apply exec_not_NotNode. inversion Hp; assumption.
      + inversion Hp; subst. constructor; [destruct p; cbn in *; tauto|]. change (NNot r :: map NNot neg) with (map NNot (r :: neg)).
        apply Forall_map. exact Hn.
    - intros [= <-]. apply exec_and. split.
      + exists (p :: q :: pos), neg. splits; [reflexivity|discriminate|]. intros x Hx. apply exec_not_NotNode. unfold all_exec in Hp. rewrite Forall_forall in Hp. apply Hp, Hx.
      + change (Forall below_and ((p :: q :: pos) ++ map NNot neg)). apply Forall_app. split.
        * eapply Forall_impl; [|exact Hp]. intros x Hx. destruct x; cbn in *; tauto.
        * apply Forall_map. exact Hn.
  Qed.
  Lemma leaf_exec a n : leaf a = Some n -> executable n.
  Proof.
    unfold S_parser.leaf. destruct (parse_terms a) as [|w [|w' ws]]; [discriminate| |]; intros [= <-]; [|exact I]. destruct (is_glob w); exact I.
  Qed.
  Lemma leaves_of_exec f l : all_exec (leaves_of f l).
  Proof.
    apply Forall_forall. intros n Hn. apply in_flat_map in Hn as (a & _ & Hn). destruct (f a); [|destruct Hn].
    pose proof (leaf_exec a) as Hl. destruct (leaf a) as [x|]; [|destruct Hn]. destruct Hn as [<-|[]]. apply Hl. reflexivity.
  Qed.
  Definition m_exec (m : meaning) : Prop := forall n, m = MTree (Some n) -> executable n.
  Lemma opt_exec o : (forall n, o = Some n -> executable n) -> all_exec (opt_list o).
  Proof. destruct o as [x|]; cbn; intros H; constructor; [apply H; reflexivity|constructor]. Qed.
  Lemma meaning_exec :
    (forall t, m_exec (m_term t)) /\ (forall a, m_exec (m_and a)) /\
    (forall l pos neg, all_exec pos -> all_exec neg -> m_exec (m_ops pos neg l)) /\
    (forall o, m_exec (m_or o)) /\ (forall l alts, all_exec alts -> m_exec (m_ors alts l)).
  Proof.
    apply cst_mutind.
    - intros o IH. rewrite m_paren. exact IH.
    - intros a l n. rewrite m_atoms.
      pose proof (leaves_of_exec (fun a => negb (negated a)) (a :: l)) as Hp. pose proof (leaves_of_exec negated (a :: l)) as Hn.
      set (pos := leaves_of (fun a => negb (negated a)) (a :: l)) in *. set (neg := leaves_of negated (a :: l)) in *. clearbody pos neg.
      destruct pos as [|p pos]; [destruct neg; intros; discriminate|]. intros [= H].
      eapply (join_and_exec (p :: pos) neg); [discriminate|exact Hp|exact Hn|exact H].
    - intros t IHt l IHl n. rewrite m_cand. destruct (m_term t) as [o|] eqn:E; [|discriminate]. cbn [mbind].
      apply IHl; [|constructor]. apply opt_exec. intros x ->. apply IHt. reflexivity.
    - intros pos neg Hp Hn n. rewrite m_opsnil. destruct pos as [|p pos]; [discriminate|]. intros [= H].
      eapply (join_and_exec (p :: pos) neg); [discriminate|exact Hp|exact Hn|exact H].
    - intros op t IHt l IHl pos neg Hp Hn n. rewrite m_opscons. destruct (m_term t) as [o|] eqn:E; [|discriminate]. cbn [mbind].
      assert (Ho : all_exec (opt_list o)) by (apply opt_exec; intros x ->; apply IHt; reflexivity).
      destruct op; apply IHl; try assumption; apply Forall_app; split; assumption.
    - intros a IHa l IHl n. rewrite m_cor. destruct (m_and a) as [o|] eqn:E; [|discriminate]. cbn [mbind]. apply IHl.
      apply opt_exec. intros x ->. apply IHa. reflexivity.
    - intros alts Hp n. rewrite m_orsnil. unfold join_or. destruct alts as [|x [|y alts]]; intros [= <-]; [inversion Hp; assumption|].
      apply exec_or. split; [discriminate|exact Hp].
    - intros a IHa l IHl alts Hp n. rewrite m_orscons. destruct (m_and a) as [o|] eqn:E; [|discriminate]. cbn [mbind]. apply IHl.
      apply Forall_app. split; [exact Hp|]. apply opt_exec. intros x ->. apply IHa. reflexivity.
  Qed.

  (** C48: where the leaves of the tree come from *)
  Local Notation all_leaves := (leaves_of (fun _ => true)).
  Lemma leaf_leaves a n : leaf a = Some n -> leaves n = [n].
  Proof.
    unfold S_parser.leaf. destruct (parse_terms a) as [|w [|w' ws]]; [discriminate| |]; intros [= <-]; [|reflexivity]. destruct (is_glob w); reflexivity.
  Qed.
  Lemma leaves_of_leaves f l : flat_map leaves (leaves_of f l) = leaves_of f l.
  Proof.
    unfold S_parser.leaves_of. induction l as [|a l IH]; [reflexivity|]. cbn [flat_map]. rewrite flat_map_app, IH. f_equal.
    destruct (f a); [|reflexivity]. pose proof (leaf_leaves a) as Hl. destruct (leaf a) as [n|]; [|reflexivity]. cbn. rewrite (Hl n eq_refl). reflexivity.
  Qed.
  Lemma flat_map_NNot l : flat_map leaves (map NNot l) = flat_map leaves l.
  Proof. induction l as [|n l IH]; [reflexivity|]. cbn. rewrite IH. reflexivity. Qed.
  Lemma leaves_split l :
    Permutation (leaves_of (fun a => negb (negated a)) l ++ leaves_of negated l) (all_leaves l).
  Proof.
    unfold S_parser.leaves_of. induction l as [|a l IH]; [constructor|]. cbn [flat_map]. destruct (negated a); cbn [negb app].
    - rewrite <- IH. rewrite Permutation_app_swap_app. reflexivity.
    - rewrite <- IH, app_assoc. reflexivity.
  Qed.
  Lemma leaves_of_app f a b : leaves_of f (a ++ b) = leaves_of f a ++ leaves_of f b.
  Proof. apply flat_map_app. Qed.
  Lemma no_ignored_leaf a : ign_of [SAtom a] = [] -> exists n, leaf a = Some n.
  Proof.
    unfold L_parser.ign_of, S_parser.leaf. cbn. destruct (parse_terms a) as [|w [|w' ws]]; [discriminate| |]; eauto.
  Qed.
  Lemma join_and_leaves l : flat_map leaves (opt_list (join_and l)) = flat_map leaves l.
  Proof. destruct l as [|x [|y l]]; cbn; rewrite ?app_nil_r; reflexivity. Qed.
  Lemma join_or_leaves l : flat_map leaves (opt_list (join_or l)) = flat_map leaves l.
  Proof. destruct l as [|x [|y l]]; cbn; rewrite ?app_nil_r; reflexivity. Qed.
  Lemma join_and_some x l : join_and (x :: l) <> None.
  Proof. destruct l; discriminate. Qed.

  Local Notation olv o := (flat_map leaves (opt_list o)).
  (** [o] holds the leaves [src] except [dropped] *)
  Definition holds (o : option node) (src : list node) (complete : Prop) : Prop :=
    exists dropped, Permutation (olv o ++ dropped) src /\ (complete -> dropped = [] /\ o <> None).
  Lemma ign_app_nil a b : ign_of (a ++ b) = [] -> ign_of a = [] /\ ign_of b = [].
  Proof. rewrite ign_of_app. apply app_eq_nil. Qed.

  Lemma meaning_leaves :
    (forall t o, m_term t = MTree o -> holds o (all_leaves (atoms (u_term t))) (ign_of (u_term t) = [])) /\
    (forall a o, m_and a = MTree o -> holds o (all_leaves (atoms (u_and a))) (ign_of (u_and a) = [])) /\
    (forall l pos neg o, m_ops pos neg l = MTree o ->
      holds o (flat_map leaves pos ++ flat_map leaves neg ++ all_leaves (atoms (u_ops l))) (pos <> [] /\ ign_of (u_ops l) = [])) /\
    (forall c o, m_or c = MTree o -> holds o (all_leaves (atoms (u_or c))) (ign_of (u_or c) = [])) /\
    (forall l alts o, m_ors alts l = MTree o ->
      holds o (flat_map leaves alts ++ all_leaves (atoms (u_ors l))) (alts <> [] /\ ign_of (u_ors l) = [])).
  Proof.
    apply cst_mutind.
    - intros c IH o H. rewrite m_paren in H. apply IH in H as (d & Hp & Hc). exists d.
      change (u_term (CParen c)) with ([SLParen] ++ u_or c ++ [SRParen]). 
      replace (atoms ([SLParen] ++ u_or c ++ [SRParen])) with (atoms (u_or c)) by (rewrite !atoms_app; cbn; rewrite app_nil_r; reflexivity).
      split; [exact Hp|]. intros Hi. apply ign_app_nil in Hi as [_ Hi]. apply ign_app_nil in Hi as [Hi _]. auto.
    - intros a l o H. rewrite m_atoms in H. change (u_term (CAtoms a l)) with (map SAtom (a :: l)). rewrite atoms_map.
      pose proof (leaves_split (a :: l)) as Hs. rewrite <- (leaves_of_leaves _ (a :: l)), <- (leaves_of_leaves negated (a :: l)) in Hs.
      assert (Ha : ign_of (map SAtom (a :: l)) = [] -> leaves_of (fun a => negb (negated a)) (a :: l) = [] -> leaves_of negated (a :: l) = [] -> False).
      { intros Hi H1 H2. change (map SAtom (a :: l)) with ([SAtom a] ++ map SAtom l) in Hi. apply ign_app_nil in Hi as [Hi _].
        apply no_ignored_leaf in Hi as [n Hn]. unfold S_parser.leaves_of in H1, H2. cbn [flat_map] in H1, H2. rewrite Hn in H1, H2. destruct (negated a); discriminate. }
      set (pos := leaves_of (fun a => negb (negated a)) (a :: l)) in *. set (neg := leaves_of negated (a :: l)) in *. clearbody pos neg.
      assert (Ho : o = join_and (pos ++ map NNot neg)) by (destruct pos, neg; congruence).
      exists []. rewrite app_nil_r, Ho, join_and_leaves, flat_map_app, flat_map_NNot. split; [exact Hs|].
      intros Hi. split; [reflexivity|]. destruct pos as [|p pos]; [destruct neg; [destruct (Ha Hi eq_refl eq_refl)|discriminate]|].
      apply join_and_some.
    - intros t IHt l IHl o H. rewrite m_cand in H. destruct (m_term t) as [ot|]; [|discriminate]. cbn [mbind] in H.
      destruct (IHt ot eq_refl) as (d1 & Hp1 & Hc1). apply IHl in H as (d2 & Hp2 & Hc2).
      change (u_and (CAnd t l)) with (u_term t ++ u_ops l). exists (d2 ++ d1). rewrite atoms_app, leaves_of_app. split.
      + rewrite <- Hp1, app_assoc, Hp2. cbn [flat_map app]. rewrite <- !app_assoc. apply Permutation_app_head, Permutation_app_comm.
      + intros Hi. apply ign_app_nil in Hi as [Hi1 Hi2]. destruct (Hc1 Hi1) as [-> Ho1]. destruct ot as [x|]; [|contradiction].
        destruct Hc2 as [-> Ho2]; [split; [discriminate|exact Hi2]|]. auto.
    - intros pos neg o H. rewrite m_opsnil in H. injection H as <-. change (all_leaves (atoms (u_ops OpsNil))) with (@nil node). rewrite app_nil_r.
      destruct pos as [|p pos].
      + exists (flat_map leaves neg). split; [reflexivity|]. intros [Hn _]. contradiction.
      + exists []. rewrite app_nil_r, join_and_leaves, flat_map_app, flat_map_NNot. split; [reflexivity|]. intros _. split; [reflexivity|].
        cbn [app]. apply join_and_some.
    - intros op t IHt l IHl pos neg o H. rewrite m_opscons in H. destruct (m_term t) as [ot|]; [|discriminate]. cbn [mbind] in H.
      destruct (IHt ot eq_refl) as (d1 & Hp1 & Hc1).
      change (u_ops (OpsCons op t l)) with (op_syms op ++ u_term t ++ u_ops l). rewrite !atoms_app, !leaves_of_app.
      replace (all_leaves (atoms (op_syms op))) with (@nil node) by (destruct op; reflexivity). cbn [app].
      assert (Hx : exists d2, Permutation (olv o ++ d2) (flat_map leaves pos ++ flat_map leaves neg ++ olv ot ++ all_leaves (atoms (u_ops l))) /\
                (pos <> [] /\ ign_of (u_ops l) = [] -> d2 = [] /\ o <> None)).
      { destruct op; apply IHl in H as (d2 & Hp2 & Hc2); exists d2; (split; [|intros [Hn Hi]; apply Hc2; split; [|exact Hi]]);
          try exact Hn; try (destruct pos; [contradiction|discriminate]); rewrite Hp2, flat_map_app, <- !app_assoc.
        - apply Permutation_app_head. rewrite !app_assoc. apply Permutation_app_tail, Permutation_app_comm.
        - reflexivity.
        - reflexivity. }
      destruct Hx as (d2 & Hp2 & Hc2). exists (d2 ++ d1). split.
      + rewrite <- Hp1, app_assoc, Hp2, <- !app_assoc. do 3 apply Permutation_app_head. apply Permutation_app_comm.
      + intros [Hn Hi]. apply ign_app_nil in Hi as [_ Hi]. apply ign_app_nil in Hi as [Hi1 Hi2].
        destruct (Hc1 Hi1) as [-> _]. destruct (Hc2 (conj Hn Hi2)) as [-> Ho]. auto.
    - intros a IHa l IHl o H. rewrite m_cor in H. destruct (m_and a) as [ot|]; [|discriminate]. cbn [mbind] in H.
      destruct (IHa ot eq_refl) as (d1 & Hp1 & Hc1). apply IHl in H as (d2 & Hp2 & Hc2).
      change (u_or (COr a l)) with (u_and a ++ u_ors l). exists (d2 ++ d1). rewrite atoms_app, leaves_of_app. split.
      + rewrite <- Hp1, app_assoc, Hp2. rewrite <- !app_assoc. apply Permutation_app_head, Permutation_app_comm.
      + intros Hi. apply ign_app_nil in Hi as [Hi1 Hi2]. destruct (Hc1 Hi1) as [-> Ho1]. destruct ot as [x|]; [|contradiction].
        destruct Hc2 as [-> Ho2]; [split; [discriminate|exact Hi2]|]. auto.
    - intros alts o H. rewrite m_orsnil in H. injection H as <-. change (all_leaves (atoms (u_ors OrsNil))) with (@nil node). rewrite app_nil_r.
      exists []. rewrite app_nil_r, join_or_leaves. split; [reflexivity|]. intros [Hn _]. split; [reflexivity|]. destruct alts as [|x [|y alts]]; [contradiction|discriminate|discriminate].
    - intros a IHa l IHl alts o H. rewrite m_orscons in H. destruct (m_and a) as [ot|]; [|discriminate]. cbn [mbind] in H.
      destruct (IHa ot eq_refl) as (d1 & Hp1 & Hc1). apply IHl in H as (d2 & Hp2 & Hc2).
      change (u_ors (OrsCons a l)) with ([SOr] ++ u_and a ++ u_ors l). exists (d2 ++ d1). rewrite !atoms_app, !leaves_of_app.
      change (all_leaves (atoms [SOr])) with (@nil node).
      split.
      + cbn [app]. rewrite <- Hp1, app_assoc, Hp2, flat_map_app, <- !app_assoc. do 2 apply Permutation_app_head. apply Permutation_app_comm.
      + intros [Hn Hi]. apply ign_app_nil in Hi as [_ Hi]. apply ign_app_nil in Hi as [Hi1 Hi2].
        destruct (Hc1 Hi1) as [-> _]. destruct Hc2 as [-> Ho]; [split; [destruct alts; [contradiction|discriminate]|exact Hi2]|]. auto.
  Qed.
End Query.

(** ** Query strings *)
Section Strings.
  Variable space : char -> bool.
  Variable upper : str -> str.
  Variable parse_terms : str -> list str.
  Variable is_glob : str -> bool.
  Hypothesis hyphen : space 45 = false.
  Local Notation parseQuery := (parseQuery space upper parse_terms is_glob).
  Local Notation syms_of q := (symbols upper (tokenize space q)).

  Lemma token_shapes s : Forall (fun t => t = [40] \/ t = [41] \/ quoted t \/ (exists q, quoted q /\ t = 45 :: q) \/
    (t <> [] /\ Forall (ordinary space) t)) (tokenize space s).
  Proof.
    induction (tokens_ok space hyphen s) as [|c s ts Hc _ IH|q s ts Hq _ IH|q s ts Hq _ IH|w s ts Hne Hw Hs Hh _ IH|c s ts H1 H2 H3 H4 _ IH|s ts Hs _ IH]; auto;
      constructor; auto.
    - destruct Hc as [-> | ->]; auto.
    - do 3 right; left. eauto.
    - do 4 right. auto.
  Qed.
  Lemma token_text s : let keep c := negb (space c || (c =? 34)) in
    filter keep (concat (tokenize space s)) = filter keep s.
  Proof.
    intros keep. induction (tokens_ok space hyphen s) as [|c s ts Hc _ IH|q s ts Hq _ IH|q s ts Hq _ IH|w s ts Hne Hw Hs Hh _ IH|c s ts H1 H2 H3 H4 _ IH|s ts Hs _ IH];
      cbn [concat]; rewrite ?filter_app, ?IH; try reflexivity.
    - cbn [filter]. destruct (keep c); reflexivity.
    - change (45 :: q ++ s) with ((45 :: q) ++ s). rewrite filter_app. reflexivity.
    - cbn [filter]. unfold keep at 2. rewrite H1. reflexivity.
    - cbn [filter]. unfold keep at 2. cbn. rewrite orb_true_r. reflexivity.
  Qed.

  Lemma query_total q : match parseQuery q with
    | POk _ | PErr PRequired | PErr PPositive | PErr PCommon => True | PErr (PExn _) => False end.
  Proof.
    pose proof (parse_total upper parse_terms is_glob true (tokenize space q) (tokens_nonempty space hyphen q) ltac:(discriminate)) as H.
    unfold M_parser.parseQuery. destruct (parse_tokens _ _ _ _) as [|e]; [exact I|].
    destruct H as [->|[[-> _]| ->]]; exact I.
  Qed.
  Lemma query_reads q c : u_or c = syms_of q ->
    parseQuery q = match outcome parse_terms is_glob c with POk n => POk (n, ign_of parse_terms (syms_of q)) | PErr e => PErr e end.
  Proof. apply parse_reads, tokens_nonempty, hyphen. Qed.
  Lemma outcome_not_required c : match outcome parse_terms is_glob c with
    | POk _ => True | PErr e => e = PPositive \/ e = PCommon end.
  Proof. unfold S_parser.outcome. destruct (m_or _ _ c) as [[n|]|]; auto. Qed.
  Lemma query_accepts q : OrExpr (syms_of q) ->
    (exists r, parseQuery q = POk r) \/ parseQuery q = PErr PPositive \/ parseQuery q = PErr PCommon.
  Proof.
    intros H. apply OrExpr_iff in H as [c Hc]. rewrite (query_reads q c Hc). pose proof (outcome_not_required c) as Ho.
    destruct (outcome _ _ c) as [n|e]; [eauto|]. destruct Ho as [->| ->]; auto.
  Qed.
  Lemma query_rejects q : ~ OrExpr (syms_of q) -> parseQuery q = PErr PRequired \/ parseQuery q = PErr PPositive.
  Proof.
    intros H. pose proof (parse_total upper parse_terms is_glob true (tokenize space q) (tokens_nonempty space hyphen q) ltac:(discriminate)) as Ht.
    pose proof (parse_sound upper parse_terms is_glob (tokenize space q) _ eq_refl) as Hs. unfold M_parser.parseQuery.
    destruct (parse_tokens _ _ _ _) as [x|e].
    - exfalso. apply H, OrExpr_iff, Hs. left; eauto.
    - destruct Ht as [->|[[-> _]| ->]]; auto. exfalso. apply H, OrExpr_iff, Hs. auto.
  Qed.
  Lemma query_syntax_error q : (forall a, In (SAtom a) (syms_of q) -> negated a = false) ->
    (parseQuery q = PErr PRequired <-> ~ OrExpr (syms_of q)).
  Proof.
    intros Hn. split.
    - intros H Hg. destruct (query_accepts q Hg) as [[r Hr]|[Hr|Hr]]; congruence.
    - intros H. destruct (query_rejects q H) as [Hr|Hr]; [exact Hr|]. exfalso.
      pose proof (parse_total upper parse_terms is_glob false (tokenize space q) (tokens_nonempty space hyphen q) (fun _ => Hn)) as Ht.
      unfold M_parser.parseQuery in Hr. rewrite Hr in Ht. destruct Ht as [Ht|[[_ Ht]|Ht]]; discriminate.
  Qed.
  Lemma query_parsed q n ign : parseQuery q = POk (n, ign) ->
    exists c, u_or c = syms_of q /\ m_or parse_terms is_glob c = MTree (Some n) /\ ign = ign_of parse_terms (syms_of q).
  Proof.
    intros H. destruct (parse_sound upper parse_terms is_glob (tokenize space q) _ H) as [c Hc]; [left; eauto|].
    exists c. split; [exact Hc|]. rewrite (query_reads q c Hc) in H. unfold S_parser.outcome in H.
    destruct (m_or _ _ c) as [[m|]|]; try discriminate. injection H as -> <-. auto.
  Qed.
  Lemma query_executable q n ign : parseQuery q = POk (n, ign) -> executable n.
  Proof.
    intros H. apply query_parsed in H as (c & _ & H & _).
    destruct (meaning_exec upper parse_terms is_glob) as (_ & _ & _ & He & _). apply (He c n H).
  Qed.
  Lemma query_ignored q n ign : parseQuery q = POk (n, ign) ->
    ign = filter (fun a => match parse_terms a with [] => true | _ => false end) (atoms (syms_of q)).
  Proof. intros H. apply query_parsed in H as (c & _ & _ & ->). reflexivity. Qed.
  Lemma query_leaves q n ign : parseQuery q = POk (n, ign) ->
    exists dropped, Permutation (leaves n ++ dropped) (leaves_of parse_terms is_glob (fun _ => true) (atoms (syms_of q))) /\
      (ign = [] -> dropped = []).
  Proof.
    intros H. apply query_parsed in H as (c & Hc & Hm & ->).
    destruct (meaning_leaves parse_terms is_glob) as (_ & _ & _ & Hl & _). destruct (Hl c _ Hm) as (d & Hp & Hd).
    exists d. rewrite <- Hc. cbn [opt_list flat_map] in Hp. rewrite app_nil_r in Hp. split; [exact Hp|]. intros Hi. apply Hd, Hi.
  Qed.
End Strings.
