(** * Lemmas about the query parser *)
From Verif Require Import Txt Sort Regex SMap L_token S_parser Ord M_parser Ord.

(** ** The symbols of tokens *)
Definition sym_of (t : token) : sym :=
  match fst t with
  | TyAnd => SAnd | TyOr => SOr | TyNot => SNot | TyLParen => SLParen | TyRParen => SRParen
  | TyAtom => SAtom (snd t) | TyEOF => SEOF
  end.
Lemma symbols_types upper toks : symbols upper toks = map (fun t => sym_of (ttype_of upper t, t)) toks.
Proof.
  apply map_ext. intros t. unfold symbol, ttype_of, sym_of. cbn [fst snd].
  change (txt "AND") with kw_AND. change (txt "OR") with kw_OR. change (txt "NOT") with kw_NOT.
  change (txt "(") with kw_LPAREN. change (txt ")") with kw_RPAREN.
  destruct (eqb (upper t) kw_AND); [reflexivity|]. destruct (eqb (upper t) kw_OR); [reflexivity|].
  destruct (eqb (upper t) kw_NOT); [reflexivity|]. destruct (eqb (upper t) kw_LPAREN); [reflexivity|].
  destruct (eqb (upper t) kw_RPAREN); reflexivity.
Qed.

(** ** Sorting the nodes of a term puts the negated ones last *)
Lemma sort_nodes_partition l :
  sort_nodes l = filter (fun n => negb (is_NotNode n)) l ++ filter is_NotNode l.
Proof.
  unfold sort_nodes. set (P := fun t : triple => negb (fst (fst t))). set (N := fun t : triple => fst (fst t)).
  assert (H : forall i, isort triple_leb (triples i l) = filter P (triples i l) ++ filter N (triples i l) /\
     Forall (fun t => i <= snd (fst t)) (triples i l)).
  { induction l as [|n l IH]; intros i; cbn [triples isort filter]; [split; constructor|].
    destruct (IH (i + 1)) as [-> Hi]. split.
    - change (P ((is_NotNode n, i), n)) with (negb (is_NotNode n)). change (N ((is_NotNode n, i), n)) with (is_NotNode n).
      destruct (is_NotNode n); cbn [negb].
      + (* negated: after the positive ones, before the negated ones *)
        assert (Hp : Forall (fun t => fst (fst t) = false) (filter P (triples (i + 1) l))).
        { apply Forall_forall. intros t Ht. apply filter_In in Ht as [_ Ht]. unfold P in Ht. destruct (fst (fst t)); [discriminate|reflexivity]. }
        assert (Hn : Forall (fun t => fst (fst t) = true /\ i + 1 <= snd (fst t)) (filter N (triples (i + 1) l))).
        { apply Forall_forall. intros t Ht. apply filter_In in Ht as [Hin Ht]. rewrite Forall_forall in Hi. split; [exact Ht|apply Hi, Hin]. }
        induction Hp as [|[[b j] m] ps Hb _ IHp]; cbn [app insert].
        * destruct Hn as [|[[b j] m] ns [Hb Hj] _]; cbn [insert]; [reflexivity|]. cbn in Hb, Hj. subst b. cbn.
          replace (i <=? j) with true by lia. reflexivity.
        * cbn in Hb. subst b. cbn. rewrite IHp. reflexivity.
      + destruct (filter P (triples (i + 1) l) ++ filter N (triples (i + 1) l)) as [|[[b j] m] r] eqn:E; cbn [insert app]; rewrite ?E; [reflexivity|].
        assert (Hin : In ((b, j), m) (triples (i + 1) l)).
        { assert (Hx : In ((b, j), m) (filter P (triples (i + 1) l) ++ filter N (triples (i + 1) l))) by (rewrite E; left; reflexivity).
          apply in_app_iff in Hx as [Hx|Hx]; apply filter_In in Hx; apply Hx. }
        rewrite Forall_forall in Hi. apply Hi in Hin. cbn in Hin. cbn. destruct b; [reflexivity|].
        replace (i <=? j) with true by lia. reflexivity.
    - constructor; [cbn; lia|]. eapply Forall_impl; [|exact Hi]. cbn. intros; lia. }
  destruct (H 0) as [-> _]. rewrite map_app. f_equal; clear H; generalize 0; induction l as [|n l IH]; intros i; cbn [triples filter]; try reflexivity.
  - change (P ((is_NotNode n, i), n)) with (negb (is_NotNode n)). destruct (is_NotNode n); cbn [negb map snd]; rewrite IH; reflexivity.
  - change (N ((is_NotNode n, i), n)) with (is_NotNode n). destruct (is_NotNode n); cbn [map snd]; rewrite IH; reflexivity.
Qed.

Lemma filter_none_app a b : filter_none (a ++ b) = filter_none a ++ filter_none b.
Proof. induction a as [|[n|] a IH]; cbn [app filter_none]; rewrite ?IH; reflexivity. Qed.

Lemma ttype_eqb_eq a b : ttype_eqb a b = true <-> a = b.
Proof. destruct a, b; cbn; split; congruence. Qed.

Section Parser.
  Variable parse_terms : str -> list str.
  Variable is_glob : str -> bool.
  Local Notation parseAtom := (parseAtom parse_terms is_glob).
  Local Notation atomLoop := (atomLoop parse_terms is_glob).
  Local Notation parseOrExpr := (parseOrExpr parse_terms is_glob).
  Local Notation orLoop := (orLoop parse_terms is_glob).
  Local Notation parseAndExpr := (parseAndExpr parse_terms is_glob).
  Local Notation andLoop := (andLoop parse_terms is_glob).
  Local Notation parseNotExpr := (parseNotExpr parse_terms is_glob).
  Local Notation parseTerm := (parseTerm parse_terms is_glob).
  Local Notation leaf := (leaf parse_terms is_glob).

  (** ** The methods, one step at a time *)
  Lemma or_S n st : parseOrExpr (S n) st = (pdo (a, st) <- parseAndExpr n st; orLoop n [a] st).
  Proof. reflexivity. Qed.
  Lemma orl_S n L st : orLoop (S n) L st =
        (pdo (b, st) <- check TyOr st;
        if b then pdo (a, st) <- parseAndExpr n st; orLoop n (L ++ [a]) st
        else POk (or_result L, st)).
  Proof. reflexivity. Qed.
  Lemma and_S n st : parseAndExpr (S n) st = (pdo (t, st) <- parseTerm n st; andLoop n (opt_list t) [] st).
  Proof. reflexivity. Qed.
  Lemma andl_S n L Nots st : andLoop (S n) L Nots st =
        (pdo (b, st) <- check TyAnd st;
        if b then
          pdo (t, st) <- parseNotExpr n st;
          match t with
          | None => andLoop n L Nots st
          | Some x => if is_NotNode x then andLoop n L (Nots ++ [x]) st else andLoop n (L ++ [x]) Nots st
          end
        else
          pdo (b, st) <- check TyNot st;
          if b then
            pdo (t, st) <- parseTerm n st;
            match t with
            | None => andLoop n L Nots st
            | Some x => andLoop n L (Nots ++ [NNot x]) st
            end
          else POk (and_result L Nots, st)).
  Proof. reflexivity. Qed.
  Lemma not_S n st : parseNotExpr (S n) st =
        (pdo (b, st) <- check TyNot st;
        if b then
          pdo (t, st) <- parseTerm n st;
          POk (match t with None => None | Some x => Some (NNot x) end, st)
        else parseTerm n st).
  Proof. reflexivity. Qed.
  Lemma term_S n st : parseTerm (S n) st =
        (pdo (b, st) <- check TyLParen st;
        if b then
          pdo (tree, st) <- parseOrExpr n st;
          pdo st <- require TyRParen st;
          POk (tree, st)
        else
          pdo (a, st) <- parseAtom st;
          pdo (nodes, st) <- atomLoop (S (length (rest st))) [a] st;
          pdo t <- term_result nodes;
          POk (t, st)).
  Proof. reflexivity. Qed.

  (** ** The meanings, one step at a time *)
  Local Notation m_term := (m_term parse_terms is_glob).
  Local Notation m_and := (m_and parse_terms is_glob).
  Local Notation m_ops := (m_ops parse_terms is_glob).
  Local Notation m_or := (m_or parse_terms is_glob).
  Local Notation m_ors := (m_ors parse_terms is_glob).
  Local Notation leaves_of := (leaves_of parse_terms is_glob).
  Lemma m_paren o : m_term (CParen o) = m_or o.
  Proof. reflexivity. Qed.
  Lemma m_atoms a l : m_term (CAtoms a l) =
        match leaves_of (fun a => negb (negated a)) (a :: l), leaves_of negated (a :: l) with
        | [], _ :: _ => MPositive
        | _, _ => MTree (join_and (leaves_of (fun a => negb (negated a)) (a :: l) ++ map NNot (leaves_of negated (a :: l))))
        end.
  Proof. reflexivity. Qed.
  Lemma m_cand t l : m_and (CAnd t l) = mbind (m_term t) (fun n => m_ops (opt_list n) [] l).
  Proof. reflexivity. Qed.
  Lemma m_opsnil pos neg : m_ops pos neg OpsNil = MTree (match pos with [] => None | _ => join_and (pos ++ map NNot neg) end).
  Proof. reflexivity. Qed.
  Lemma m_opscons pos neg op t l : m_ops pos neg (OpsCons op t l) =
        mbind (m_term t) (fun n =>
          match op with
          | OpAnd => m_ops (pos ++ opt_list n) neg l
          | OpAndNot | OpNot => m_ops pos (neg ++ opt_list n) l
          end).
  Proof. reflexivity. Qed.
  Lemma m_cor a l : m_or (COr a l) = mbind (m_and a) (fun n => m_ors (opt_list n) l).
  Proof. reflexivity. Qed.
  Lemma m_orsnil alts : m_ors alts OrsNil = MTree (join_or alts).
  Proof. reflexivity. Qed.
  Lemma m_orscons alts a l : m_ors alts (OrsCons a l) = mbind (m_and a) (fun n => m_ors (alts ++ opt_list n) l).
  Proof. reflexivity. Qed.

  (** ** Termination and the exceptions that can occur *)
  Section Total.
    (** when [hy] is false no atom begins with a hyphen *)
    Variable hy : bool.
    Definition tok_ok (t : token) : Prop := fst t = TyAtom -> snd t <> [] /\ (hy = false -> negated (snd t) = false).
    Definition ok_st (st : pst) : Prop := In TyEOF (map fst (rest st)) /\ Forall tok_ok (rest st).
    Definition err_ok (e : perr) : Prop := e = PRequired \/ (e = PPositive /\ hy = true).
    Definition len (st : pst) : nat := length (rest st).
    Definition good {A} (lt : bool) (k : nat) (r : pres (A * pst)) : Prop :=
      match r with
      | POk (_, st') => ok_st st' /\ (if lt then S (len st') <= k else len st' <= k)%nat
      | PErr e => err_ok e
      end.

    Lemma check_good ty st : ok_st st -> ty <> TyEOF ->
      (exists t r, rest st = t :: r /\ fst t = ty /\ check ty st = POk (true, mkPst r (ignored st)) /\
                   ok_st (mkPst r (ignored st)) /\ S (len (mkPst r (ignored st))) = len st) \/
      (check ty st = POk (false, st) /\ exists t r, rest st = t :: r /\ fst t <> ty).
    Proof.
      intros [He Hf] Hty. unfold check, len, ok_st. destruct (rest st) as [|[ty' s] r] eqn:Er; [destruct He|].
      destruct (ttype_eqb ty' ty) eqn:E.
      - apply ttype_eqb_eq in E; subst ty'. left. exists (ty, s), r. splits; try reflexivity; cbn [rest].
        + cbn in He. destruct He as [He|He]; [congruence|exact He].
        + inversion Hf; assumption.
      - right. split; [reflexivity|]. exists (ty', s), r. split; [reflexivity|]. cbn. intros ->.
        destruct ty; discriminate.
    Qed.
    Lemma require_good ty st : ok_st st -> ty <> TyEOF ->
      match require ty st with POk st' => ok_st st' /\ S (len st') = len st | PErr e => e = PRequired end.
    Proof.
      intros Hok Hty. unfold require. destruct (check_good ty st Hok Hty) as [(t & r & Er & Et & -> & H1 & H2)|[-> (t & r & Er & Et)]].
      - cbn [pbind]. auto.
      - cbn [pbind]. rewrite Er. reflexivity.
    Qed.
    Lemma atom_good st : ok_st st ->
      match parseAtom st with
      | POk (a, st') => ok_st st' /\ S (len st') = len st /\ (hy = false -> forall x, a = Some x -> is_NotNode x = false)
      | PErr e => e = PRequired
      end.
    Proof.
      intros Hok. unfold M_parser.parseAtom, get_tok. destruct (rest st) as [|[ty s] r] eqn:Er; [destruct Hok as [H _]; rewrite Er in H; destruct H|].
      unfold require. destruct (check_good TyAtom st Hok ltac:(discriminate)) as [(t & r' & Er' & Et & -> & H1 & H2)|[-> _]].
      - cbn [pbind]. rewrite Er in Er'. injection Er' as <- <-. cbn in Et. subst ty.
        destruct Hok as [_ Hf]. rewrite Er in Hf. inversion Hf as [|? ? Ht _]; subst. destruct (Ht eq_refl) as [Hne Hng]. cbn [snd] in *.
        destruct (parse_terms s) as [|w ws]; [split; [exact H1|split; [exact H2|intros _ x; discriminate]]|].
        destruct s as [|c s]; [contradiction|]. splits; auto. intros Hh x [= <-]. specialize (Hng Hh). cbn in Hng. rewrite Hng.
        destruct ws; [destruct (is_glob w)|]; reflexivity.
      - cbn [pbind]. rewrite Er. reflexivity.
    Qed.
    Lemma atomLoop_good n nodes st : ok_st st -> (len st < n)%nat ->
      (hy = false -> Forall (fun x => is_NotNode x = false) (filter_none nodes)) ->
      match atomLoop n nodes st with
      | POk (l, st') => ok_st st' /\ (len st' <= len st)%nat /\ (hy = false -> Forall (fun x => is_NotNode x = false) (filter_none l))
      | PErr e => e = PRequired
      end.
    Proof.
      revert nodes st; induction n as [|n IH]; intros nodes st Hok Hn Hh; [lia|]. cbn [M_parser.atomLoop]. unfold peek.
      destruct (rest st) as [|[ty s] r] eqn:Er; [destruct Hok as [H _]; rewrite Er in H; destruct H|]. cbn [pbind].
      destruct (ttype_eqb ty TyAtom); [|auto].
      pose proof (atom_good st Hok) as Ha. destruct (parseAtom st) as [[a st1]|e]; [|exact Ha]. cbn [pbind].
      destruct Ha as (Hok1 & Hl & Ha). specialize (IH (nodes ++ [a]) st1 Hok1 ltac:(lia)).
      assert (Hh' : hy = false -> Forall (fun x => is_NotNode x = false) (filter_none (nodes ++ [a]))).
      { intros H. rewrite filter_none_app. apply Forall_app. split; [apply Hh, H|]. destruct a as [x|]; cbn; constructor; [|constructor].
        apply (Ha H x eq_refl). }
      specialize (IH Hh'). destruct (atomLoop n (nodes ++ [a]) st1) as [[l st2]|e]; [|exact IH].
      destruct IH as (A & B & C). splits; auto. lia.
    Qed.
    Lemma term_result_good nodes : (hy = false -> Forall (fun x => is_NotNode x = false) (filter_none nodes)) ->
      match term_result nodes with POk _ => True | PErr e => err_ok e end.
    Proof.
      intros H. unfold term_result. destruct (filter_none nodes) as [|n l] eqn:E; [exact I|]. rewrite sort_nodes_partition.
      destruct (filter (fun n => negb (is_NotNode n)) (n :: l)) as [|x ps] eqn:Ep.
      - assert (Hn : is_NotNode n = true).
        { destruct (is_NotNode n) eqn:En; [reflexivity|]. cbn [filter] in Ep. rewrite En in Ep. discriminate. }
        cbn [app filter]. rewrite Hn, Hn. right. split; [reflexivity|].
        destruct hy; [reflexivity|]. specialize (H eq_refl). inversion H; congruence.
      - assert (Hx : is_NotNode x = false).
        { assert (Hin : In x (filter (fun n => negb (is_NotNode n)) (n :: l))) by (rewrite Ep; left; reflexivity).
          apply filter_In in Hin as [_ Hin]. destruct (is_NotNode x); [discriminate|reflexivity]. }
        cbn [app]. rewrite Hx. destruct (ps ++ filter is_NotNode (n :: l)); exact I.
    Qed.

    Lemma good_weaken {A} k (r : pres (A * pst)) : good true k r -> good false k r.
    Proof. unfold good. destruct r as [[a st]|e]; [|auto]. intros [H1 H2]. split; [exact H1|lia]. Qed.
    Lemma good_le {A} b k k' (r : pres (A * pst)) : (k <= k')%nat -> good b k r -> good b k' r.
    Proof. unfold good. intros Hk. destruct r as [[a st]|e]; [|auto]. intros [H1 H2]. split; [exact H1|]. destruct b; lia. Qed.

    Lemma parser_total n :
      (forall st, ok_st st -> (6 * len st + 3 <= n)%nat -> good true (len st) (parseOrExpr n st)) /\
      (forall L st, ok_st st -> (6 * len st + 1 <= n)%nat -> good false (len st) (orLoop n L st)) /\
      (forall st, ok_st st -> (6 * len st + 2 <= n)%nat -> good true (len st) (parseAndExpr n st)) /\
      (forall L N st, ok_st st -> (6 * len st + 1 <= n)%nat -> good false (len st) (andLoop n L N st)) /\
      (forall st, ok_st st -> (6 * len st + 2 <= n)%nat -> good true (len st) (parseNotExpr n st)) /\
      (forall st, ok_st st -> (6 * len st + 1 <= n)%nat -> good true (len st) (parseTerm n st)).
    Proof.
      induction n as [|n (IO & IOL & IA & IAL & IN & IT)]; [splits; intros; lia|]. splits.
      - intros st Hok Hn. rewrite ?or_S, ?orl_S, ?and_S, ?andl_S, ?not_S, ?term_S. pose proof (IA st Hok ltac:(lia)) as H.
        destruct (parseAndExpr n st) as [[a st1]|e]; [|exact H]. destruct H as [Hok1 Hl]. cbn [pbind].
        pose proof (IOL [a] st1 Hok1 ltac:(lia)) as H. destruct (orLoop n [a] st1) as [[o st2]|e]; [|exact H].
        destruct H as [Hok2 Hl2]. split; [exact Hok2|lia].
      - intros L st Hok Hn. rewrite ?or_S, ?orl_S, ?and_S, ?andl_S, ?not_S, ?term_S.
        destruct (check_good TyOr st Hok ltac:(discriminate)) as [(t & r & Er & Et & -> & H1 & H2)|[-> _]]; cbn [pbind].
        + pose proof (IA _ H1 ltac:(lia)) as H. destruct (parseAndExpr n _) as [[a st1]|e]; [|exact H]. destruct H as [Hok1 Hl]. cbn [pbind].
          pose proof (IOL (L ++ [a]) st1 Hok1 ltac:(lia)) as H. eapply good_le; [|exact H]. lia.
        + split; [exact Hok|lia].
      - intros st Hok Hn. rewrite ?or_S, ?orl_S, ?and_S, ?andl_S, ?not_S, ?term_S. pose proof (IT st Hok ltac:(lia)) as H.
        destruct (parseTerm n st) as [[t st1]|e]; [|exact H]. destruct H as [Hok1 Hl]. cbn [pbind].
        match goal with |- good _ _ (andLoop n ?L ?N st1) => pose proof (IAL L N st1 Hok1 ltac:(lia)) as H; destruct (andLoop n L N st1) as [[o st2]|e]; [|exact H] end.
        destruct H as [Hok2 Hl2]. split; [exact Hok2|lia].
      - intros L N st Hok Hn. rewrite ?or_S, ?orl_S, ?and_S, ?andl_S, ?not_S, ?term_S.
        destruct (check_good TyAnd st Hok ltac:(discriminate)) as [(t & r & Er & Et & -> & H1 & H2)|[-> _]]; cbn [pbind].
        + pose proof (IN _ H1 ltac:(lia)) as H. destruct (parseNotExpr n _) as [[a st1]|e]; [|exact H]. destruct H as [Hok1 Hl]. cbn [pbind].
          assert (Hg : forall L N, good false (len st) (andLoop n L N st1)).
          { intros L' N'. eapply good_le; [|apply IAL; [exact Hok1|lia]]. lia. }
          destruct a as [x|]; [destruct (is_NotNode x)|]; apply Hg.
        + destruct (check_good TyNot st Hok ltac:(discriminate)) as [(t & r & Er & Et & -> & H1 & H2)|[-> _]]; cbn [pbind].
          * pose proof (IT _ H1 ltac:(lia)) as H. destruct (parseTerm n _) as [[a st1]|e]; [|exact H]. destruct H as [Hok1 Hl]. cbn [pbind].
            assert (Hg : forall L N, good false (len st) (andLoop n L N st1)).
            { intros L' N'. eapply good_le; [|apply IAL; [exact Hok1|lia]]. lia. }
            destruct a as [x|]; apply Hg.
          * split; [exact Hok|lia].
      - intros st Hok Hn. rewrite ?or_S, ?orl_S, ?and_S, ?andl_S, ?not_S, ?term_S.
        destruct (check_good TyNot st Hok ltac:(discriminate)) as [(t & r & Er & Et & -> & H1 & H2)|[-> _]]; cbn [pbind].
        + pose proof (IT _ H1 ltac:(lia)) as H. destruct (parseTerm n _) as [[a st1]|e]; [|exact H]. destruct H as [Hok1 Hl]. cbn [pbind].
          split; [exact Hok1|lia].
        + apply IT; [exact Hok|lia].
      - intros st Hok Hn. rewrite ?or_S, ?orl_S, ?and_S, ?andl_S, ?not_S, ?term_S.
        destruct (check_good TyLParen st Hok ltac:(discriminate)) as [(t & r & Er & Et & -> & H1 & H2)|[-> _]]; cbn [pbind].
        + pose proof (IO _ H1 ltac:(lia)) as H. destruct (parseOrExpr n _) as [[a st1]|e]; [|exact H]. destruct H as [Hok1 Hl]. cbn [pbind].
          pose proof (require_good TyRParen st1 Hok1 ltac:(discriminate)) as Hr. destruct (require TyRParen st1) as [st2|e]; cbn [pbind].
          * destruct Hr as [Hok2 Hl2]. split; [exact Hok2|lia].
          * left. exact Hr.
        + pose proof (atom_good st Hok) as Ha. destruct (parseAtom st) as [[a st1]|e]; [|left; exact Ha]. cbn [pbind].
          destruct Ha as (Hok1 & Hl & Ha).
          assert (Hh : hy = false -> Forall (fun x => is_NotNode x = false) (filter_none [a])).
          { intros H. destruct a as [x|]; cbn; constructor; [|constructor]. apply (Ha H x eq_refl). }
          pose proof (atomLoop_good (S (len st1)) [a] st1 Hok1 ltac:(lia) Hh) as Hlp. unfold len in Hlp at 1.
          destruct (atomLoop _ [a] st1) as [[l st2]|e]; [|left; exact Hlp]. cbn [pbind]. destruct Hlp as (Hok2 & Hl2 & Hh2).
          pose proof (term_result_good l Hh2) as Ht. destruct (term_result l); cbn [pbind]; [|exact Ht]. split; [exact Hok2|lia].
    Qed.
  End Total.

  (** ** What has been read when a method returns *)
  Definition syms (st : pst) : list sym := map sym_of (rest st).

  Lemma check_inv ty st b st' : check ty st = POk (b, st') ->
    if b then exists t r, rest st = t :: r /\ fst t = ty /\ st' = mkPst r (ignored st) else st' = st.
  Proof.
    unfold check. destruct (rest st) as [|[ty' s] r] eqn:Er; [discriminate|]. destruct (ttype_eqb ty' ty) eqn:E.
    - intros [= <- <-]. apply ttype_eqb_eq in E. exists (ty', s), r. auto.
    - intros [= <- <-]. reflexivity.
  Qed.
  Lemma check_sym ty st st' : check ty st = POk (true, st') -> ty <> TyAtom ->
    syms st = sym_of (ty, []) :: syms st'.
  Proof.
    intros H Hty. apply check_inv in H as ([ty' s] & r & Er & <- & ->). unfold syms. rewrite Er. cbn [map rest fst].
    f_equal. unfold sym_of. cbn [fst snd] in *. destruct ty'; congruence.
  Qed.
  Lemma pbind_ok {A B} (m : pres A) (f : A -> pres B) b : pbind m f = POk b -> exists a, m = POk a /\ f a = POk b.
  Proof. destruct m; cbn; [eauto|discriminate]. Qed.
  Lemma require_sym ty st st' : require ty st = POk st' -> ty <> TyAtom -> syms st = sym_of (ty, []) :: syms st'.
  Proof.
    unfold require. intros H Hty. apply pbind_ok in H as ([[] st1] & Hc & H).
    - injection H as <-. apply check_sym; assumption.
    - destruct (rest st1); discriminate.
  Qed.
  Lemma atom_sym st a st' : parseAtom st = POk (a, st') -> exists s, syms st = SAtom s :: syms st'.
  Proof.
    unfold M_parser.parseAtom, get_tok. intros H. apply pbind_ok in H as ([s st1] & Hg & H).
    destruct (rest st) as [|[ty s0] r] eqn:Er; [discriminate|]. apply pbind_ok in Hg as (st2 & Hr & Hg). injection Hg as <- <-.
    unfold require in Hr. apply pbind_ok in Hr as ([[] st3] & Hc & Hr); [|destruct (rest st3); discriminate]. injection Hr as <-.
    apply check_inv in Hc as (t & r' & Er' & Et & ->). rewrite Er in Er'. injection Er' as <- <-. cbn in Et. subst ty.
    exists s0. unfold syms. rewrite Er. cbn [map sym_of fst snd].
    destruct (parse_terms s0) as [|w ws]; [injection H as <- <-; reflexivity|]. destruct s0; [discriminate|]. injection H as <- <-. reflexivity.
  Qed.
  Lemma atomLoop_sym n nodes st l st' : atomLoop n nodes st = POk (l, st') -> exists ss, syms st = map SAtom ss ++ syms st'.
  Proof.
    revert nodes st; induction n as [|n IH]; intros nodes st H; [discriminate|]. cbn [M_parser.atomLoop] in H.
    apply pbind_ok in H as (b & Hp & H). destruct b.
    - apply pbind_ok in H as ([a st1] & Ha & H). apply atom_sym in Ha as [s Hs]. apply IH in H as [ss Hss].
      exists (s :: ss). rewrite Hs, Hss. reflexivity.
    - injection H as <- <-. exists []. reflexivity.
  Qed.
  Lemma parser_sound n :
    (forall st o st', parseOrExpr n st = POk (o, st') -> exists c, syms st = u_or c ++ syms st') /\
    (forall L st o st', orLoop n L st = POk (o, st') -> exists c, syms st = u_ors c ++ syms st') /\
    (forall st o st', parseAndExpr n st = POk (o, st') -> exists c, syms st = u_and c ++ syms st') /\
    (forall L N st o st', andLoop n L N st = POk (o, st') -> exists c, syms st = u_ops c ++ syms st') /\
    (forall st o st', parseNotExpr n st = POk (o, st') ->
       exists c b, syms st = (if b : bool then [SNot] else []) ++ u_term c ++ syms st') /\
    (forall st o st', parseTerm n st = POk (o, st') -> exists c, syms st = u_term c ++ syms st').
  Proof.
    induction n as [|n (IO & IOL & IA & IAL & IN & IT)]; [splits; intros; discriminate|]. splits.
    - intros st o st' H. rewrite ?or_S, ?orl_S, ?and_S, ?andl_S, ?not_S, ?term_S in H. apply pbind_ok in H as ([a st1] & Ha & H).
      apply IA in Ha as [c Hc]. apply IOL in H as [d Hd]. exists (COr c d). cbn [u_or]. rewrite Hc, Hd, app_assoc. reflexivity.
    - intros L st o st' H. rewrite ?or_S, ?orl_S, ?and_S, ?andl_S, ?not_S, ?term_S in H. apply pbind_ok in H as ([b st1] & Hb & H). destruct b.
      + apply check_sym in Hb; [|discriminate]. apply pbind_ok in H as ([a st2] & Ha & H).
        apply IA in Ha as [c Hc]. apply IOL in H as [d Hd]. exists (OrsCons c d). cbn [u_ors].
        rewrite Hb, Hc, Hd. cbn. rewrite app_assoc. reflexivity.
      + apply check_inv in Hb. injection H as <- <-. subst st1. exists OrsNil. reflexivity.
    - intros st o st' H. rewrite ?or_S, ?orl_S, ?and_S, ?andl_S, ?not_S, ?term_S in H. apply pbind_ok in H as ([a st1] & Ha & H).
      apply IT in Ha as [c Hc]. apply IAL in H as [d Hd]. exists (CAnd c d). cbn [u_and]. rewrite Hc, Hd, app_assoc. reflexivity.
    - intros L N st o st' H. rewrite ?or_S, ?orl_S, ?and_S, ?andl_S, ?not_S, ?term_S in H. apply pbind_ok in H as ([b st1] & Hb & H). destruct b.
      + apply check_sym in Hb; [|discriminate]. apply pbind_ok in H as ([a st2] & Ha & H).
        apply IN in Ha as (c & b & Hc).
        assert (Hd : exists d, syms st2 = u_ops d ++ syms st').
        { destruct a as [x|]; [destruct (is_NotNode x)|]; eapply IAL; exact H. }
        destruct Hd as [d Hd]. exists (OpsCons (if b then OpAndNot else OpAnd) c d). cbn [u_ops].
        rewrite Hb, Hc, Hd. destruct b; cbn; rewrite !app_assoc; reflexivity.
      + apply check_inv in Hb. subst st1. apply pbind_ok in H as ([b st1] & Hb & H). destruct b.
        * apply check_sym in Hb; [|discriminate]. apply pbind_ok in H as ([a st2] & Ha & H). apply IT in Ha as [c Hc].
          assert (Hd : exists d, syms st2 = u_ops d ++ syms st') by (destruct a; eapply IAL; exact H).
          destruct Hd as [d Hd]. exists (OpsCons OpNot c d). cbn [u_ops]. rewrite Hb, Hc, Hd. cbn. rewrite !app_assoc. reflexivity.
        * apply check_inv in Hb. injection H as <- <-. subst st1. exists OpsNil. reflexivity.
    - intros st o st' H. rewrite ?or_S, ?orl_S, ?and_S, ?andl_S, ?not_S, ?term_S in H. apply pbind_ok in H as ([b st1] & Hb & H). destruct b.
      + apply check_sym in Hb; [|discriminate]. apply pbind_ok in H as ([a st2] & Ha & H). injection H as _ <-.
        apply IT in Ha as [c Hc]. exists c, true. rewrite Hb, Hc. reflexivity.
      + apply check_inv in Hb. subst st1. apply IT in H as [c Hc]. exists c, false. exact Hc.
    - intros st o st' H. rewrite ?or_S, ?orl_S, ?and_S, ?andl_S, ?not_S, ?term_S in H. apply pbind_ok in H as ([b st1] & Hb & H). destruct b.
      + apply check_sym in Hb; [|discriminate]. apply pbind_ok in H as ([a st2] & Ha & H). apply IO in Ha as [c Hc].
        apply pbind_ok in H as (st3 & Hr & H). apply require_sym in Hr; [|discriminate]. injection H as _ <-.
        exists (CParen c). cbn [u_term]. rewrite Hb, Hc, Hr. cbn. rewrite <- app_assoc. reflexivity.
      + apply check_inv in Hb. subst st1. apply pbind_ok in H as ([a st1] & Ha & H). apply atom_sym in Ha as [s Hs].
        apply pbind_ok in H as ([l st2] & Hl & H). apply atomLoop_sym in Hl as [ss Hss]. apply pbind_ok in H as (t & _ & H). injection H as _ <-.
        exists (CAtoms s ss). cbn [u_term]. rewrite Hs, Hss. reflexivity.
  Qed.

  (** ** A derivable query is read as its syntax tree says *)
  Definition oof {A} (r : pres A) : Prop := r = PErr (PExn OutOfFuel).
  Definition ign_of (l : list sym) : list str :=
    filter (fun a => match parse_terms a with [] => true | _ => false end) (atoms l).
  (** the result of reading something that means [m], spelled [l], before [k] *)
  Definition reads (m : meaning) (l : list sym) (k : list token) (ign : list str) : pres (option node * pst) :=
    match m with MTree o => POk (o, mkPst k (ign ++ ign_of l)) | MPositive => PErr PPositive end.

  Lemma atoms_app a b : atoms (a ++ b) = atoms a ++ atoms b.
  Proof. apply flat_map_app. Qed.
  Lemma ign_of_app a b : ign_of (a ++ b) = ign_of a ++ ign_of b.
  Proof. unfold ign_of. rewrite atoms_app. apply filter_app. Qed.
  Lemma atoms_map l : atoms (map SAtom l) = l.
  Proof. induction l as [|a l IH]; cbn; [reflexivity|]. f_equal. exact IH. Qed.

  Definition atoms_ne (l : list sym) : Prop := forall a, In (SAtom a) l -> a <> [].

  (** tokens spelled by a list of symbols *)
  Lemma split_syms toks a b : map sym_of toks = a ++ b ->
    exists t1 t2, toks = t1 ++ t2 /\ map sym_of t1 = a /\ map sym_of t2 = b.
  Proof.
    revert toks; induction a as [|x a IH]; intros toks H; cbn in H.
    - exists [], toks. auto.
    - destruct toks as [|t toks]; [discriminate|]. injection H as H1 H2. apply IH in H2 as (t1 & t2 & -> & <- & <-).
      exists (t :: t1), t2. cbn. rewrite H1. auto.
  Qed.
  Lemma sym_type t s : sym_of t = s -> match s with
    | SAnd => fst t = TyAnd | SOr => fst t = TyOr | SNot => fst t = TyNot | SLParen => fst t = TyLParen
    | SRParen => fst t = TyRParen | SAtom a => t = (TyAtom, a) | SEOF => fst t = TyEOF end.
  Proof. destruct t as [ty x]. intros <-. destruct ty; reflexivity. Qed.

  Lemma parseAtom_reads s r ign : s <> [] ->
    parseAtom (mkPst ((TyAtom, s) :: r) ign) =
    POk (match leaf s with Some n => Some (if negated s then NNot n else n) | None => None end,
         mkPst r (ign ++ ign_of [SAtom s])).
  Proof.
    intros Hne. unfold M_parser.parseAtom, get_tok, require, check. cbn [rest ignored ttype_eqb pbind].
    unfold leaf, S_parser.leaf, ign_of. cbn [atoms flat_map app filter]. destruct (parse_terms s) as [|w ws].
    - reflexivity.
    - destruct s as [|c s]; [contradiction|]. cbn [negated]. rewrite app_nil_r. destruct ws; reflexivity.
  Qed.
  Definition atom_node (s : str) : option node :=
    match leaf s with Some n => Some (if negated s then NNot n else n) | None => None end.
  Lemma atomLoop_reads ss n nodes k ign : (length ss < n)%nat -> Forall (fun s => s <> []) ss ->
    (exists t r, k = t :: r /\ fst t <> TyAtom) ->
    atomLoop n nodes (mkPst (map (fun s => (TyAtom, s)) ss ++ k) ign) =
    POk (nodes ++ map atom_node ss, mkPst k (ign ++ ign_of (map SAtom ss))).
  Proof.
    intros Hn Hne Hk. revert n nodes ign Hn; induction Hne as [|s ss Hs Hss IH]; intros n nodes ign Hn; destruct n as [|n]; cbn [length] in Hn; try lia.
    - cbn [M_parser.atomLoop map app]. unfold peek. cbn [rest]. destruct Hk as ([ty x] & r & -> & Hty). cbn [pbind].
      destruct (ttype_eqb ty TyAtom) eqn:E; [apply ttype_eqb_eq in E; contradiction|]. rewrite !app_nil_r. reflexivity.
    - cbn [M_parser.atomLoop map app]. unfold peek. cbn [rest pbind ttype_eqb]. rewrite parseAtom_reads by exact Hs. cbn [pbind].
      rewrite IH by lia. fold (atom_node s). rewrite <- !app_assoc. cbn [app].
      change (SAtom s :: map SAtom ss) with ([SAtom s] ++ map SAtom ss). rewrite ign_of_app. reflexivity.
  Qed.
  Lemma leaf_not_NotNode s n : leaf s = Some n -> is_NotNode n = false.
  Proof.
    unfold leaf, S_parser.leaf. destruct (parse_terms s) as [|w [|w' ws]]; [discriminate| |]; intros [= <-]; [|reflexivity].
    destruct (is_glob w); reflexivity.
  Qed.
  Lemma filter_none_atoms ss :
    filter (fun n => negb (is_NotNode n)) (filter_none (map atom_node ss)) =
      leaves_of (fun a => negb (negated a)) ss /\
    filter is_NotNode (filter_none (map atom_node ss)) = map NNot (leaves_of negated ss).
  Proof.
    induction ss as [|s ss [IH1 IH2]]; [split; reflexivity|].
    assert (Hl : forall f, leaves_of f (s :: ss) =
      (if f s then match leaf s with Some n => [n] | None => [] end else []) ++ leaves_of f ss) by reflexivity.
    rewrite !Hl. clear Hl. cbn [map filter_none].
    assert (Ha : atom_node s = match leaf s with Some n => Some (if negated s then NNot n else n) | None => None end) by reflexivity.
    rewrite Ha. clear Ha. pose proof (leaf_not_NotNode s) as Hn. destruct (leaf s) as [n|].
    - specialize (Hn n eq_refl). destruct (negated s); cbn [filter is_NotNode negb]; rewrite ?Hn; cbn [negb app map];
        rewrite IH1, IH2; auto.
    - destruct (negated s); cbn [negb app map]; auto.
  Qed.
  Lemma term_result_reads s ss :
    term_result (map atom_node (s :: ss)) =
    match m_term (CAtoms s ss) with MTree o => POk o | MPositive => PErr PPositive end.
  Proof.
    unfold term_result. destruct (filter_none_atoms (s :: ss)) as [H1 H2].
    rewrite m_atoms. set (pos := leaves_of (fun a => negb (negated a)) (s :: ss)) in *.
    set (neg := leaves_of negated (s :: ss)) in *. clearbody pos neg.
    destruct (filter_none (map atom_node (s :: ss))) as [|x l].
    - cbn [filter] in H1, H2. rewrite <- H1. destruct neg; [reflexivity|discriminate].
    - rewrite sort_nodes_partition, H1, H2. destruct pos as [|p pos].
      + destruct neg as [|q neg]; [|reflexivity]. exfalso. cbn [filter map] in H1, H2. destruct (is_NotNode x); discriminate.
      + assert (Hp : is_NotNode p = false).
        { assert (Hin : In p (filter (fun n => negb (is_NotNode n)) (x :: l))) by (rewrite H1; left; reflexivity).
          apply filter_In in Hin as [_ Hin]. destruct (is_NotNode p); [discriminate|reflexivity]. }
        cbn [app]. rewrite Hp. cbn [join_and]. destruct (pos ++ map NNot neg); reflexivity.
  Qed.

  (** terms never mean a NotNode *)
  Definition positive (m : meaning) : Prop := forall n, m = MTree (Some n) -> is_NotNode n = false.
  Definition all_positive (l : list node) : Prop := forall n, In n l -> is_NotNode n = false.
  Scheme cterm_mut := Induction for cterm Sort Prop
  with cand_mut := Induction for cand Sort Prop
  with cops_mut := Induction for cops Sort Prop
  with cor_mut := Induction for cor Sort Prop
  with cors_mut := Induction for cors Sort Prop.
  Combined Scheme cst_mutind from cterm_mut, cand_mut, cops_mut, cor_mut, cors_mut.
  Lemma join_and_positive pos neg n : pos <> [] -> all_positive pos -> join_and (pos ++ map NNot neg) = Some n -> is_NotNode n = false.
  Proof.
    intros Hne Hp. destruct pos as [|p pos]; [contradiction|]. cbn [app join_and]. destruct (pos ++ map NNot neg); intros [= <-]; [|reflexivity].
    apply Hp. left; reflexivity.
  Qed.
  Lemma all_positive_app a b : all_positive a -> all_positive b -> all_positive (a ++ b).
  Proof. intros H1 H2 n Hn. apply in_app_iff in Hn as [Hn|Hn]; auto. Qed.
  Lemma opt_list_positive o : (forall n, o = Some n -> is_NotNode n = false) -> all_positive (opt_list o).
  Proof. intros H n. destruct o as [x|]; cbn; [|intros []]. intros [<-|[]]. apply H. reflexivity. Qed.
  Lemma leaves_of_positive f l : all_positive (leaves_of f l).
  Proof.
    intros n Hn. apply in_flat_map in Hn as (a & _ & Hn). destruct (f a); [|destruct Hn]. fold leaf in Hn.
    destruct (leaf a) as [x|] eqn:E; [|destruct Hn]. destruct Hn as [<-|[]]. eapply leaf_not_NotNode; exact E.
  Qed.
  Lemma meaning_positive :
    (forall t, positive (m_term t)) /\
    (forall a, positive (m_and a)) /\
    (forall l pos neg, all_positive pos -> positive (m_ops pos neg l)) /\
    (forall o, positive (m_or o)) /\
    (forall l alts, all_positive alts -> positive (m_ors alts l)).
  Proof.
    apply cst_mutind.
    - intros o IH. exact IH.
    - intros a l n. rewrite ?m_paren, ?m_atoms, ?m_cand, ?m_opsnil, ?m_opscons, ?m_cor, ?m_orsnil, ?m_orscons. set (pos := leaves_of (fun a => negb (negated a)) (a :: l)). set (neg := leaves_of negated (a :: l)).
      pose proof (leaves_of_positive (fun a => negb (negated a)) (a :: l)) as Hp. fold pos in Hp.
      destruct pos as [|p pos]; [destruct neg; intros; discriminate|]. intros [= H].
      eapply (join_and_positive (p :: pos) neg); [discriminate|exact Hp|]. cbn [app join_and]. exact H.
    - intros t IHt l IHl n. rewrite ?m_paren, ?m_atoms, ?m_cand, ?m_opsnil, ?m_opscons, ?m_cor, ?m_orsnil, ?m_orscons. destruct (m_term t) as [o|] eqn:E; [|discriminate]. cbn [mbind]. apply IHl.
      apply opt_list_positive. intros x ->. apply IHt. reflexivity.
    - intros pos neg Hp n. rewrite ?m_paren, ?m_atoms, ?m_cand, ?m_opsnil, ?m_opscons, ?m_cor, ?m_orsnil, ?m_orscons. destruct pos as [|p pos]; [discriminate|]. intros [= H].
      eapply (join_and_positive (p :: pos) neg); [discriminate|exact Hp|exact H].
    - intros op t IHt l IHl pos neg Hp n. rewrite ?m_paren, ?m_atoms, ?m_cand, ?m_opsnil, ?m_opscons, ?m_cor, ?m_orsnil, ?m_orscons. destruct (m_term t) as [o|] eqn:E; [|discriminate]. cbn [mbind].
      destruct op; apply IHl; try assumption. apply all_positive_app; [exact Hp|]. apply opt_list_positive. intros x ->. apply IHt. reflexivity.
    - intros a IHa l IHl n. rewrite ?m_paren, ?m_atoms, ?m_cand, ?m_opsnil, ?m_opscons, ?m_cor, ?m_orsnil, ?m_orscons. destruct (m_and a) as [o|] eqn:E; [|discriminate]. cbn [mbind]. apply IHl.
      apply opt_list_positive. intros x ->. apply IHa. reflexivity.
    - intros alts Hp n. rewrite ?m_paren, ?m_atoms, ?m_cand, ?m_opsnil, ?m_opscons, ?m_cor, ?m_orsnil, ?m_orscons. unfold join_or. destruct alts as [|x [|y alts]]; intros [= <-]; [|reflexivity]. apply Hp. left; reflexivity.
    - intros a IHa l IHl alts Hp n. rewrite ?m_paren, ?m_atoms, ?m_cand, ?m_opsnil, ?m_opscons, ?m_cor, ?m_orsnil, ?m_orscons. destruct (m_and a) as [o|] eqn:E; [|discriminate]. cbn [mbind]. apply IHl.
      apply all_positive_app; [exact Hp|]. apply opt_list_positive. intros x ->. apply IHa. reflexivity.
  Qed.

  Definition stops (bad : list ttype) (k : list token) : Prop := exists t r, k = t :: r /\ ~ In (fst t) bad.
  Lemma stops_check ty bad k ign : stops bad k -> In ty bad -> check ty (mkPst k ign) = POk (false, mkPst k ign).
  Proof.
    intros ([ty' x] & r & -> & Hn) Hin. unfold check. cbn [rest]. destruct (ttype_eqb ty' ty) eqn:E; [|reflexivity].
    apply ttype_eqb_eq in E; subst. contradiction.
  Qed.
  Lemma stops_incl a b k : stops a k -> incl b a -> stops b k.
  Proof. intros (t & r & -> & H) Hi. exists t, r. split; [reflexivity|]. intros Hin. apply H, Hi, Hin. Qed.
  Lemma check_hit ty x r ign : check ty (mkPst ((ty, x) :: r) ign) = POk (true, mkPst r ign).
  Proof. unfold check. cbn [rest ignored]. replace (ttype_eqb ty ty) with true by (destruct ty; reflexivity). reflexivity. Qed.
  Lemma oof_bind {A B} (m : pres A) (f : A -> pres B) : ~ oof (pbind m f) -> ~ oof m.
  Proof. intros H Ho. apply H. unfold oof in *. rewrite Ho. reflexivity. Qed.

  Definition c_term := [TyAtom].
  Definition c_and := [TyAtom; TyAnd; TyNot].
  Definition c_or := [TyAtom; TyAnd; TyNot; TyOr].
  Lemma ops_stops l toks k : map sym_of toks = u_ops l -> stops c_and k -> stops c_term (toks ++ k).
  Proof.
    intros H Hk. destruct l as [|op t l]; cbn [u_ops] in H.
    - destruct toks; [|discriminate]. eapply stops_incl; [exact Hk|]. intros x [<-|[]]. cbn; auto.
    - destruct toks as [|tk toks]; [destruct op; discriminate|]. exists tk, (toks ++ k). split; [reflexivity|].
      cbn. intros [Hx|[]]. cbn in H. destruct tk as [ty x]. cbn in Hx. subst ty. destruct op; discriminate.
  Qed.
  Lemma ors_stops l toks k : map sym_of toks = u_ors l -> stops c_or k -> stops c_and (toks ++ k).
  Proof.
    intros H Hk. destruct l as [|a l]; cbn [u_ors] in H.
    - destruct toks; [|discriminate]. eapply stops_incl; [exact Hk|]. intros x Hx. cbn in *. tauto.
    - destruct toks as [|tk toks]; [discriminate|]. exists tk, (toks ++ k). split; [reflexivity|].
      cbn. destruct tk as [ty x]. cbn in H |- *. intros [Hx|[Hx|[Hx|[]]]]; subst ty; discriminate.
  Qed.

  Lemma reads_all :
    (forall t n toks k ign, map sym_of toks = u_term t -> atoms_ne (u_term t) -> stops c_term k ->
      ~ oof (parseTerm n (mkPst (toks ++ k) ign)) ->
      parseTerm n (mkPst (toks ++ k) ign) = reads (m_term t) (u_term t) k ign) /\
    (forall a n toks k ign, map sym_of toks = u_and a -> atoms_ne (u_and a) -> stops c_and k ->
      ~ oof (parseAndExpr n (mkPst (toks ++ k) ign)) ->
      parseAndExpr n (mkPst (toks ++ k) ign) = reads (m_and a) (u_and a) k ign) /\
    (forall l n toks k ign pos neg, map sym_of toks = u_ops l -> atoms_ne (u_ops l) -> stops c_and k ->
      ~ oof (andLoop n pos (map NNot neg) (mkPst (toks ++ k) ign)) ->
      andLoop n pos (map NNot neg) (mkPst (toks ++ k) ign) = reads (m_ops pos neg l) (u_ops l) k ign) /\
    (forall o n toks k ign, map sym_of toks = u_or o -> atoms_ne (u_or o) -> stops c_or k ->
      ~ oof (parseOrExpr n (mkPst (toks ++ k) ign)) ->
      parseOrExpr n (mkPst (toks ++ k) ign) = reads (m_or o) (u_or o) k ign) /\
    (forall l n toks k ign L, map sym_of toks = u_ors l -> atoms_ne (u_ors l) -> stops c_or k ->
      ~ oof (orLoop n L (mkPst (toks ++ k) ign)) ->
      orLoop n L (mkPst (toks ++ k) ign) = reads (m_ors (filter_none L) l) (u_ors l) k ign).
  Proof.
    apply cst_mutind.
    - (* parentheses *)
      intros o IH n toks k ign H Hne Hk Ho. cbn [u_term] in H. destruct toks as [|[ty x] toks]; [discriminate|].
      cbn [map] in H. injection H as H0 H. apply sym_type in H0. cbn in H0. subst ty.
      apply split_syms in H as (t1 & t2 & -> & H1 & H2). destruct t2 as [|[ty y] [|? ?]]; try discriminate. injection H2 as H2.
      apply sym_type in H2. cbn in H2. subst ty.
      destruct n as [|n]; [destruct Ho; reflexivity|]. rewrite ?or_S, ?orl_S, ?and_S, ?andl_S, ?not_S, ?term_S in Ho |- *; cbn [app] in Ho |- *. rewrite check_hit in Ho |- *.
      cbn [pbind] in Ho |- *. rewrite <- app_assoc in Ho |- *. cbn [app] in Ho |- *.
      specialize (IH n t1 ((TyRParen, y) :: k) ign H1).
      rewrite IH.
      + rewrite m_paren. cbn [u_term]. destruct (m_or o) as [r|]; cbn [reads pbind]; [|reflexivity].
        unfold require. rewrite check_hit. cbn [pbind]. f_equal. f_equal. f_equal. f_equal.
        change (SLParen :: u_or o ++ [SRParen]) with ([SLParen] ++ u_or o ++ [SRParen]). rewrite !ign_of_app. cbn. rewrite app_nil_r. reflexivity.
      + intros a Ha. apply Hne. cbn [u_term]. right. apply in_or_app. left; exact Ha.
      + exists (TyRParen, y), k. split; [reflexivity|]. cbn. intuition discriminate.
      + eapply oof_bind; exact Ho.
    - (* atoms *)
      intros a l n toks k ign H Hne Hk Ho. cbn [u_term] in H. destruct toks as [|tk toks]; [discriminate|].
      cbn [map] in H. injection H as H0 H. apply sym_type in H0. subst tk.
      assert (Ht : toks = map (fun s => (TyAtom, s)) l).
      { clear -H. revert toks H; induction l as [|s l IH]; intros [|tk toks] H; try discriminate; [reflexivity|].
        cbn [map] in H. injection H as H0 H. apply sym_type in H0. subst tk. cbn [map]. f_equal. apply IH, H. }
      subst toks. assert (Ha : a <> []) by (apply Hne; left; reflexivity).
      assert (Hl : Forall (fun s => s <> []) l).
      { apply Forall_forall. intros s Hs. apply Hne. right. apply in_map, Hs. }
      destruct n as [|n]; [destruct Ho; reflexivity|]. rewrite ?or_S, ?orl_S, ?and_S, ?andl_S, ?not_S, ?term_S; cbn [app]. unfold check at 1. cbn [rest ttype_eqb pbind].
      rewrite parseAtom_reads by exact Ha. cbn [pbind]. rewrite atomLoop_reads; [| |exact Hl|].
      + cbn [pbind]. fold (atom_node a). cbn [app]. rewrite <- (map_cons atom_node a l). rewrite term_result_reads.
        destruct (m_term (CAtoms a l)); cbn [pbind reads u_term]; [|reflexivity].
        rewrite <- app_assoc. change (SAtom a :: map SAtom l) with ([SAtom a] ++ map SAtom l). rewrite ign_of_app. reflexivity.
      + cbn [rest]. rewrite app_length, map_length. cbn [length]. change (@length (list char) l) with (@length str l). lia.
      + destruct Hk as (t & r & -> & Ht). exists t, r. split; [reflexivity|]. intros E. apply Ht. left. symmetry; exact E.
    - (* and *)
      intros t IHt l IHl n toks k ign H Hne Hk Ho. cbn [u_and] in *. apply split_syms in H as (t1 & t2 & -> & H1 & H2).
      destruct n as [|n]; [destruct Ho; reflexivity|]. rewrite ?or_S, ?orl_S, ?and_S, ?andl_S, ?not_S, ?term_S in Ho |- *. rewrite <- app_assoc in Ho |- *.
      rewrite IHt in Ho |- *; try assumption.
      all: try (eapply ops_stops; eassumption).
      all: try (intros a Ha; apply Hne, in_or_app; left; exact Ha).
      all: try (eapply oof_bind; exact Ho).
      rewrite ?m_paren, ?m_atoms, ?m_cand, ?m_opsnil, ?m_opscons, ?m_cor, ?m_orsnil, ?m_orscons. destruct (m_term t) as [o|] eqn:Em; cbn [reads pbind mbind] in Ho |- *; [|reflexivity].
      specialize (IHl n t2 k (ign ++ ign_of (u_term t)) (opt_list o) []).
      cbn [map] in IHl. rewrite IHl; try assumption.
      + unfold reads. destruct (m_ops _ _ _); [|reflexivity]. rewrite ign_of_app, app_assoc. reflexivity.
      + intros a Ha; apply Hne, in_or_app; right; exact Ha.
    - (* no more operators *)
      intros n toks k ign pos neg H Hne Hk Ho. destruct toks; [|discriminate]. destruct n as [|n]; [destruct Ho; reflexivity|].
      rewrite ?or_S, ?orl_S, ?and_S, ?andl_S, ?not_S, ?term_S; cbn [app]. rewrite (stops_check TyAnd c_and) by (auto; cbn; auto). cbn [pbind].
      rewrite (stops_check TyNot c_and) by (auto; cbn; auto). rewrite m_opsnil. cbn [pbind reads u_ops].
      unfold ign_of. cbn [atoms flat_map filter]. rewrite app_nil_r. unfold and_result, join_and. destruct pos as [|p pos]; [reflexivity|].
      cbn [app]. destruct (pos ++ map NNot neg); reflexivity.
    - (* one more operator *)
      intros op t IHt l IHl n toks k ign pos neg H Hne Hk Ho. cbn [u_ops] in *.
      apply split_syms in H as (t0 & t' & -> & H0 & H). apply split_syms in H as (t1 & t2 & -> & H1 & H2).
      rewrite <- !app_assoc in Ho |- *.
      assert (Hne1 : atoms_ne (u_term t)) by (intros a Ha; apply Hne, in_or_app; right; apply in_or_app; left; exact Ha).
      assert (Hne2 : atoms_ne (u_ops l)) by (intros a Ha; apply Hne, in_or_app; right; apply in_or_app; right; exact Ha).
      assert (Hst : stops c_term (t2 ++ k)) by (eapply ops_stops; eassumption).
      assert (Hign : forall ign, ign ++ ign_of (op_syms op ++ u_term t ++ u_ops l) = (ign ++ ign_of (u_term t)) ++ ign_of (u_ops l)).
      { intros i. rewrite !ign_of_app. replace (ign_of (op_syms op)) with (@nil str) by (destruct op; reflexivity). cbn. apply app_assoc. }
      destruct meaning_positive as (Hpos & _).
      destruct n as [|n]; [destruct Ho; reflexivity|]. rewrite ?or_S, ?orl_S, ?and_S, ?andl_S, ?not_S, ?term_S in Ho |- *. rewrite ?m_paren, ?m_atoms, ?m_cand, ?m_opsnil, ?m_opscons, ?m_cor, ?m_orsnil, ?m_orscons. unfold reads. rewrite Hign. clear Hign.
      destruct op; cbn [op_syms] in H0.
      + (* AND term *)
        destruct t0 as [|[ty x] [|? ?]]; try discriminate. injection H0 as H0. apply sym_type in H0. cbn in H0. subst ty.
        cbn [app] in Ho |- *. rewrite check_hit in Ho |- *. cbn [pbind] in Ho |- *.
        assert (Hnot : forall m, ~ oof (parseNotExpr m (mkPst (t1 ++ t2 ++ k) ign)) ->
          parseNotExpr m (mkPst (t1 ++ t2 ++ k) ign) = reads (m_term t) (u_term t) (t2 ++ k) ign).
        { intros m Hm. destruct m as [|m]; [destruct Hm; reflexivity|]. rewrite ?or_S, ?orl_S, ?and_S, ?andl_S, ?not_S, ?term_S in Hm |- *.
          assert (Hc : check TyNot (mkPst (t1 ++ t2 ++ k) ign) = POk (false, mkPst (t1 ++ t2 ++ k) ign)).
          { unfold check. cbn [rest]. destruct t as [o|a ls]; cbn [u_term] in H1; (destruct t1 as [|[ty y] t1]; [discriminate|]);
              cbn [map] in H1; injection H1 as H1 _; apply sym_type in H1; [cbn in H1; subst ty|injection H1 as -> ->]; reflexivity. }
          rewrite Hc in Hm |- *. cbn [pbind] in Hm |- *. apply IHt; assumption. }
        rewrite Hnot in Ho |- * by (eapply oof_bind; exact Ho).
        destruct (m_term t) as [o|] eqn:Em; cbn [reads pbind mbind] in Ho |- *; [|reflexivity].
        destruct o as [x'|]; cbn [opt_list] in Ho |- *.
        * assert (Hx : is_NotNode x' = false) by (apply (Hpos t x' Em)). rewrite Hx in Ho |- *. rewrite IHl by assumption. reflexivity.
        * rewrite app_nil_r. rewrite IHl by assumption. reflexivity.
      + (* AND NOT term *)
        destruct t0 as [|[ty x] [|[ty' x'] [|? ?]]]; try discriminate. injection H0 as H0 H0'. apply sym_type in H0, H0'. cbn in H0, H0'. subst ty ty'.
        cbn [app] in Ho |- *. rewrite check_hit in Ho |- *. cbn [pbind] in Ho |- *. destruct n as [|n]; [destruct Ho; reflexivity|].
        rewrite ?or_S, ?orl_S, ?and_S, ?andl_S, ?not_S, ?term_S in Ho |- *. rewrite check_hit in Ho |- *. cbn [pbind] in Ho |- *.
        rewrite IHt in Ho |- *; try assumption; try (eapply oof_bind, oof_bind; exact Ho).
        destruct (m_term t) as [o|] eqn:Em; cbn [reads pbind mbind] in Ho |- *; [|reflexivity].
        destruct o as [y|]; cbn [opt_list is_NotNode] in Ho |- *.
        * assert (E : map NNot neg ++ [NNot y] = map NNot (neg ++ [y])) by (rewrite map_app; reflexivity). rewrite E in Ho |- *.
          rewrite IHl by assumption. reflexivity.
        * rewrite app_nil_r. rewrite IHl by assumption. reflexivity.
      + (* NOT term *)
        destruct t0 as [|[ty x] [|? ?]]; try discriminate. injection H0 as H0. apply sym_type in H0. cbn in H0. subst ty.
        cbn [app] in Ho |- *. assert (Hc : check TyAnd (mkPst ((TyNot, x) :: t1 ++ t2 ++ k) ign) = POk (false, mkPst ((TyNot, x) :: t1 ++ t2 ++ k) ign)) by reflexivity.
        rewrite Hc in Ho |- *. cbn [pbind] in Ho |- *. rewrite check_hit in Ho |- *. cbn [pbind] in Ho |- *.
        rewrite IHt in Ho |- *; try assumption; try (eapply oof_bind; exact Ho).
        destruct (m_term t) as [o|] eqn:Em; cbn [reads pbind mbind] in Ho |- *; [|reflexivity].
        destruct o as [y|]; cbn [opt_list] in Ho |- *.
        * assert (E : map NNot neg ++ [NNot y] = map NNot (neg ++ [y])) by (rewrite map_app; reflexivity). rewrite E in Ho |- *.
          rewrite IHl by assumption. reflexivity.
        * rewrite app_nil_r. rewrite IHl by assumption. reflexivity.
    - (* or *)
      intros a IHa l IHl n toks k ign H Hne Hk Ho. cbn [u_or] in *. apply split_syms in H as (t1 & t2 & -> & H1 & H2).
      destruct n as [|n]; [destruct Ho; reflexivity|]. rewrite ?or_S, ?orl_S, ?and_S, ?andl_S, ?not_S, ?term_S in Ho |- *. rewrite <- app_assoc in Ho |- *.
      rewrite IHa in Ho |- *; try assumption.
      all: try (eapply ors_stops; eassumption).
      all: try (intros x Hx; apply Hne, in_or_app; left; exact Hx).
      all: try (eapply oof_bind; exact Ho).
      rewrite ?m_paren, ?m_atoms, ?m_cand, ?m_opsnil, ?m_opscons, ?m_cor, ?m_orsnil, ?m_orscons. destruct (m_and a) as [o|] eqn:Em; cbn [reads pbind mbind] in Ho |- *; [|reflexivity].
      rewrite IHl; try assumption.
      + replace (filter_none [o]) with (opt_list o) by (destruct o; reflexivity).
        unfold reads. destruct (m_ors _ _); [|reflexivity]. rewrite ign_of_app, app_assoc. reflexivity.
      + intros x Hx; apply Hne, in_or_app; right; exact Hx.
    - intros n toks k ign L H Hne Hk Ho. destruct toks; [|discriminate]. destruct n as [|n]; [destruct Ho; reflexivity|].
      rewrite ?or_S, ?orl_S, ?and_S, ?andl_S, ?not_S, ?term_S; cbn [app]. rewrite (stops_check TyOr c_or) by (auto; cbn; auto). rewrite m_orsnil. cbn [pbind reads u_ors]. unfold ign_of. cbn.
      rewrite app_nil_r. unfold or_result, join_or. destruct (filter_none L) as [|? [|? ?]]; reflexivity.
    - intros a IHa l IHl n toks k ign L H Hne Hk Ho. cbn [u_ors] in H, Hne. destruct toks as [|[ty x] toks]; [discriminate|].
      cbn [map] in H. injection H as H0 H. apply sym_type in H0. cbn in H0. subst ty.
      apply split_syms in H as (t1 & t2 & -> & H1 & H2).
      destruct n as [|n]; [destruct Ho; reflexivity|]. rewrite ?or_S, ?orl_S, ?and_S, ?andl_S, ?not_S, ?term_S in Ho |- *; cbn [app] in Ho |- *. rewrite check_hit in Ho |- *. cbn [pbind] in Ho |- *.
      rewrite <- app_assoc in Ho |- *.
      rewrite IHa in Ho |- *; try assumption.
      all: try (eapply ors_stops; eassumption).
      all: try (intros z Hz; apply Hne; right; apply in_or_app; left; exact Hz).
      all: try (eapply oof_bind; exact Ho).
      rewrite ?m_paren, ?m_atoms, ?m_cand, ?m_opsnil, ?m_opscons, ?m_cor, ?m_orsnil, ?m_orscons. destruct (m_and a) as [o|] eqn:Em; cbn [reads pbind mbind] in Ho |- *; [|reflexivity].
      rewrite IHl; try assumption.
      + replace (filter_none (L ++ [o])) with (filter_none L ++ opt_list o) by (rewrite filter_none_app; destruct o; reflexivity).
        unfold reads. destruct (m_ors _ _); [|reflexivity]. cbn [u_ors].
        change (SOr :: u_and a ++ u_ors l) with ([SOr] ++ u_and a ++ u_ors l). rewrite !ign_of_app, <- app_assoc. reflexivity.
      + intros z Hz; apply Hne; right; apply in_or_app; right; exact Hz.
  Qed.
End Parser.

(** ** The documented grammar and the syntax trees describe the same language *)
Fixpoint ops_app (a b : cops) : cops := match a with OpsNil => b | OpsCons op t a => OpsCons op t (ops_app a b) end.
Lemma u_ops_app a b : u_ops (ops_app a b) = u_ops a ++ u_ops b.
Proof.
  induction a as [|op t a IH]; [reflexivity|]. cbn [ops_app].
  change (op_syms op ++ u_term t ++ u_ops (ops_app a b) = (op_syms op ++ u_term t ++ u_ops a) ++ u_ops b).
  rewrite IH, !app_assoc. reflexivity.
Qed.

Scheme OrExpr_mut := Minimality for OrExpr Sort Prop
with AndExpr_mut := Minimality for AndExpr Sort Prop
with AndTail_mut := Minimality for AndTail Sort Prop
with NotExpr_mut := Minimality for NotExpr Sort Prop
with Term_mut := Minimality for Term Sort Prop.
Combined Scheme grammar_mutind from OrExpr_mut, AndExpr_mut, AndTail_mut, NotExpr_mut, Term_mut.

Lemma grammar_trees :
  (forall s, OrExpr s -> exists c, u_or c = s) /\
  (forall s, AndExpr s -> exists c, u_and c = s) /\
  (forall s, AndTail s -> exists c, u_ops c = s) /\
  (forall s, NotExpr s -> exists c (b : bool), (if b then [SNot] else []) ++ u_term c = s) /\
  (forall s, Term s -> exists c, u_term c = s).
Proof.
  apply grammar_mutind.
  - intros a _ [c <-]. exists (COr c OrsNil). cbn. apply app_nil_r.
  - intros a b _ [c <-] _ [[d l] <-]. exists (COr c (OrsCons d l)). reflexivity.
  - intros t l _ [c <-] _ [d <-]. exists (CAnd c d). reflexivity.
  - exists OpsNil. reflexivity.
  - intros a l _ (c & b & <-) _ [d <-]. exists (OpsCons (if b then OpAndNot else OpAnd) c d). destruct b; cbn; reflexivity.
  - intros a l _ [[t ops] <-] _ [d <-]. exists (OpsCons OpNot t (ops_app ops d)). cbn -[ops_app]. rewrite u_ops_app, app_assoc. reflexivity.
  - intros t _ [c <-]. exists c, true. reflexivity.
  - intros t _ [c <-]. exists c, false. reflexivity.
  - intros o _ [c <-]. exists (CParen c). reflexivity.
  - intros a l. exists (CAtoms a l). reflexivity.
Qed.
Lemma trees_grammar :
  (forall c, Term (u_term c)) /\ (forall c, AndExpr (u_and c)) /\ (forall c, AndTail (u_ops c)) /\
  (forall c, OrExpr (u_or c)) /\ (forall c, c = OrsNil \/ exists o, u_ors c = SOr :: u_or o /\ OrExpr (u_or o)).
Proof.
  apply cst_mutind.
  - intros o H. apply term_paren, H.
  - intros a l. apply term_atoms.
  - intros t Ht l Hl. apply and_intro; assumption.
  - apply tail_nil.
  - intros op t Ht l Hl. change (AndTail (op_syms op ++ u_term t ++ u_ops l)). destruct op; cbn [op_syms app].
    + apply tail_and; [apply not_term, Ht|exact Hl].
    + change (AndTail (SAnd :: (SNot :: u_term t) ++ u_ops l)). apply tail_and; [apply not_not, Ht|exact Hl].
    + apply tail_not; [|exact Hl]. rewrite <- (app_nil_r (u_term t)). apply and_intro; [exact Ht|apply tail_nil].
  - intros a Ha l [->|(o & E & Ho)].
    + change (OrExpr (u_and a ++ [])). rewrite app_nil_r. apply or_one, Ha.
    + change (OrExpr (u_and a ++ u_ors l)). rewrite E. apply or_more; assumption.
  - left; reflexivity.
  - intros a Ha l Hl. right. exists (COr a l). split; [reflexivity|]. change (OrExpr (u_and a ++ u_ors l)). destruct Hl as [->|(o & E & Ho)].
    + change (u_ors OrsNil) with (@nil sym). rewrite app_nil_r. apply or_one, Ha.
    + rewrite E. apply or_more; assumption.
Qed.
Lemma OrExpr_iff s : OrExpr s <-> exists c, u_or c = s.
Proof. split; [apply grammar_trees|]. intros [c <-]. apply trees_grammar. Qed.

(** ** The syntax tree of a query is unique *)
Definition halts (bad : sym -> bool) (k : list sym) : Prop := match k with [] => True | s :: _ => bad s = false end.
Definition is_atom (s : sym) : bool := match s with SAtom _ => true | _ => false end.
Definition cont_and (s : sym) : bool := match s with SAtom _ | SAnd | SNot => true | _ => false end.
Definition cont_or (s : sym) : bool := match s with SAtom _ | SAnd | SNot | SOr => true | _ => false end.
Lemma u_term_head t : exists s r, u_term t = s :: r /\ (s = SLParen \/ is_atom s = true).
Proof. destruct t; cbn; eauto. Qed.
Lemma halts_ops l k : halts cont_and k -> halts is_atom (u_ops l ++ k).
Proof. destruct l as [|[] t l]; cbn; auto. destruct k as [|[]]; cbn; auto. Qed.
Lemma halts_ors l k : halts cont_or k -> halts cont_and (u_ors l ++ k).
Proof. destruct l as [|a l]; cbn; auto. destruct k as [|[]]; cbn; auto. Qed.
Lemma atoms_unique l l' k k' : halts is_atom k -> halts is_atom k' -> map SAtom l ++ k = map SAtom l' ++ k' -> l = l' /\ k = k'.
Proof.
  intros Hk Hk'. revert l'; induction l as [|a l IH]; intros [|a' l'] H; cbn [map app] in H.
  - auto.
  - subst k. cbn in Hk. discriminate.
  - subst k'. cbn in Hk'. discriminate.
  - injection H as <- H. apply IH in H as [-> ->]. auto.
Qed.
Lemma trees_unique :
  (forall t t' k k', halts is_atom k -> halts is_atom k' -> u_term t ++ k = u_term t' ++ k' -> t = t' /\ k = k') /\
  (forall a a' k k', halts cont_and k -> halts cont_and k' -> u_and a ++ k = u_and a' ++ k' -> a = a' /\ k = k') /\
  (forall l l' k k', halts cont_and k -> halts cont_and k' -> u_ops l ++ k = u_ops l' ++ k' -> l = l' /\ k = k') /\
  (forall o o' k k', halts cont_or k -> halts cont_or k' -> u_or o ++ k = u_or o' ++ k' -> o = o' /\ k = k') /\
  (forall l l' k k', halts cont_or k -> halts cont_or k' -> u_ors l ++ k = u_ors l' ++ k' -> l = l' /\ k = k').
Proof.
  apply cst_mutind.
  - intros o IH [o'|a' l'] k k' Hk Hk' H; cbn in H; [|discriminate]. injection H as H. rewrite <- !app_assoc in H. cbn [app] in H.
    apply IH in H as [-> H]; try exact eq_refl. injection H as ->. auto.
  - intros a l [o'|a' l'] k k' Hk Hk' H; cbn in H; [discriminate|]. injection H as <- H. apply atoms_unique in H as [-> ->]; auto.
  - intros t IHt l IHl [t' l'] k k' Hk Hk' H.
    change ((u_term t ++ u_ops l) ++ k = (u_term t' ++ u_ops l') ++ k') in H. rewrite <- !app_assoc in H.
    apply IHt in H as [-> H]; try (apply halts_ops; assumption). apply IHl in H as [-> ->]; auto.
  - intros [|op t l'] k k' Hk Hk' H; [auto|]. exfalso. change (k = (op_syms op ++ u_term t ++ u_ops l') ++ k') in H. subst k. destruct op; cbn in Hk; discriminate.
  - intros op t IHt l IHl [|op' t' l'] k k' Hk Hk' H.
    + exfalso. change ((op_syms op ++ u_term t ++ u_ops l) ++ k = k') in H. subst k'. destruct op; cbn in Hk'; discriminate.
    + change ((op_syms op ++ u_term t ++ u_ops l) ++ k = (op_syms op' ++ u_term t' ++ u_ops l') ++ k') in H.
      rewrite <- !app_assoc in H.
      assert (E : op = op' /\ u_term t ++ u_ops l ++ k = u_term t' ++ u_ops l' ++ k').
      { destruct (u_term_head t) as (s & r & Es & Hs), (u_term_head t') as (s' & r' & Es' & Hs'). rewrite Es, Es' in *.
        clear -H Hs Hs'. cbn [app] in *. destruct op, op'; cbn [op_syms app] in H; try discriminate.
        all: try (split; [reflexivity|]; injection H as H1 H2; rewrite H1, H2; reflexivity).
        all: exfalso; injection H; intros; subst; cbn in *; intuition discriminate. }
      destruct E as [-> E]. apply IHt in E as [-> E]; try (apply halts_ops; assumption). apply IHl in E as [-> ->]; auto.
  - intros a IHa l IHl [a' l'] k k' Hk Hk' H.
    change ((u_and a ++ u_ors l) ++ k = (u_and a' ++ u_ors l') ++ k') in H. rewrite <- !app_assoc in H.
    apply IHa in H as [-> H]; try (apply halts_ors; assumption). apply IHl in H as [-> ->]; auto.
  - intros [|a l'] k k' Hk Hk' H; [auto|]. exfalso. change (k = (SOr :: u_and a ++ u_ors l') ++ k') in H. subst k. cbn in Hk; discriminate.
  - intros a IHa l IHl [|a' l'] k k' Hk Hk' H.
    + exfalso. change ((SOr :: u_and a ++ u_ors l) ++ k = k') in H. subst k'. cbn in Hk'; discriminate.
    + change ((SOr :: u_and a ++ u_ors l) ++ k = (SOr :: u_and a' ++ u_ors l') ++ k') in H. cbn [app] in H. injection H as H. rewrite <- !app_assoc in H.
      apply IHa in H as [-> H]; try (apply halts_ors; assumption). apply IHl in H as [-> ->]; auto.
Qed.
Lemma tree_unique c c' : u_or c = u_or c' -> c = c'.
Proof. intros H. apply (proj1 (proj2 (proj2 (proj2 trees_unique))) c c' [] []); try exact I. rewrite H. reflexivity. Qed.
