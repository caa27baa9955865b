(** * Lemmas: the terms of a query *)
From Verif Require Import L_parser L_token L_query L_queryex L_tree S_terms S_parser M_parser SMap Ord.

Scheme cterm_ind' := Induction for cterm Sort Prop
with cand_ind' := Induction for cand Sort Prop
with cops_ind' := Induction for cops Sort Prop
with cor_ind' := Induction for cor Sort Prop
with cors_ind' := Induction for cors Sort Prop.
Combined Scheme cst_mut from cterm_ind', cand_ind', cops_ind', cor_ind', cors_ind'.

Section Terms.
  Variable parse_terms : str -> list str.
  Variable is_glob : str -> bool.
  Notation vals l := (flat_map (term_of parse_terms) l).
  Notation m_term := (m_term parse_terms is_glob).
  Notation m_and := (m_and parse_terms is_glob).
  Notation m_ops := (m_ops parse_terms is_glob).
  Notation m_or := (m_or parse_terms is_glob).
  Notation m_ors := (m_ors parse_terms is_glob).
  Definition oterms (n : option node) : list qterm := flat_map terms (opt_list n).

  Lemma terms_leaf a : flat_map terms (match leaf parse_terms is_glob a with Some n => [n] | None => [] end) = term_of parse_terms a.
  Proof. unfold leaf, term_of. destruct (parse_terms a) as [|w [|w' ws]]; [reflexivity| |reflexivity]. destruct (is_glob w); reflexivity. Qed.
  Lemma terms_leaves f l : flat_map terms (leaves_of parse_terms is_glob f l) = vals (filter f l).
  Proof.
    unfold leaves_of. induction l as [|a l IH]; [reflexivity|]. cbn [flat_map filter]. rewrite flat_map_app, IH.
    destruct (f a); [|reflexivity]. cbn [flat_map]. rewrite terms_leaf. reflexivity.
  Qed.
  Lemma terms_nots l : flat_map terms (map NNot l) = [].
  Proof. induction l as [|n l IH]; [reflexivity|exact IH]. Qed.
  Lemma terms_join_and l : oterms (join_and l) = flat_map terms l.
  Proof. unfold oterms. destruct l as [|a [|b l]]; try reflexivity. cbn [join_and opt_list flat_map terms]. rewrite app_nil_r. reflexivity. Qed.
  Lemma terms_join_or l : oterms (join_or l) = flat_map terms l.
  Proof. unfold oterms. destruct l as [|a [|b l]]; try reflexivity. cbn [join_or opt_list flat_map terms]. rewrite app_nil_r. reflexivity. Qed.

  Lemma meaning_terms :
    (forall t n, m_term t = MTree n -> oterms n = vals (wanted_term t)) /\
    (forall a n, m_and a = MTree n -> oterms n = vals (wanted_and a)) /\
    (forall l pos neg n, m_ops pos neg l = MTree n -> oterms n = flat_map terms pos ++ vals (wanted_ops l)) /\
    (forall o n, m_or o = MTree n -> oterms n = vals (wanted_or o)) /\
    (forall l alts n, m_ors alts l = MTree n -> oterms n = flat_map terms alts ++ vals (wanted_ors l)).
  Proof.
    apply cst_mut.
    - intros o IH n E. exact (IH n E).
    - intros a l n E. change ((let pos := leaves_of parse_terms is_glob (fun a => negb (negated a)) (a :: l) in
        let neg := leaves_of parse_terms is_glob negated (a :: l) in
        match pos, neg with [], _ :: _ => MPositive | _, _ => MTree (join_and (pos ++ map NNot neg)) end) = MTree n) in E. cbv zeta in E. change (wanted_term (CAtoms a l)) with (filter (fun a => negb (negated a)) (a :: l)). rewrite <- terms_leaves.
      set (pos := leaves_of parse_terms is_glob (fun a => negb (negated a)) (a :: l)) in *.
      set (neg := leaves_of parse_terms is_glob negated (a :: l)) in *.
      assert (En : n = join_and (pos ++ map NNot neg)) by (destruct pos, neg; congruence).
      rewrite En, terms_join_and, flat_map_app, terms_nots, app_nil_r. reflexivity.
    - intros t IHt l IHl n E. change (mbind (m_term t) (fun n => m_ops (opt_list n) [] l) = MTree n) in E. destruct (m_term t) as [n1|] eqn:E1; cbn [mbind] in E; [|discriminate E].
      rewrite (IHl _ _ _ E). change (wanted_and (CAnd t l)) with (wanted_term t ++ wanted_ops l). rewrite flat_map_app, <- (IHt _ eq_refl). reflexivity.
    - intros pos neg n E. change (MTree (match pos with [] => None | _ => join_and (pos ++ map NNot neg) end) = MTree n) in E. cbn [wanted_ops flat_map]. rewrite app_nil_r. injection E as <-.
      destruct pos as [|p pos]; [reflexivity|]. rewrite terms_join_and, flat_map_app, terms_nots, app_nil_r. reflexivity.
    - intros op t IHt l IHl pos neg n E. change (mbind (m_term t) (fun n => match op with
          | OpAnd => m_ops (pos ++ opt_list n) neg l | OpAndNot | OpNot => m_ops pos (neg ++ opt_list n) l end) = MTree n) in E.
      destruct (m_term t) as [n1|] eqn:E1; cbn [mbind] in E; [|discriminate E].
      destruct op; rewrite (IHl _ _ _ E); try reflexivity. change (wanted_ops (OpsCons OpAnd t l)) with (wanted_term t ++ wanted_ops l).
      rewrite !flat_map_app, <- (IHt _ eq_refl), app_assoc. reflexivity.
    - intros a IHa l IHl n E. change (mbind (m_and a) (fun n => m_ors (opt_list n) l) = MTree n) in E. destruct (m_and a) as [n1|] eqn:E1; cbn [mbind] in E; [|discriminate E].
      rewrite (IHl _ _ E). change (wanted_or (COr a l)) with (wanted_and a ++ wanted_ors l). rewrite flat_map_app, <- (IHa _ eq_refl). reflexivity.
    - intros alts n E. change (MTree (join_or alts) = MTree n) in E. injection E as <-. cbn [wanted_ors flat_map]. rewrite app_nil_r. apply terms_join_or.
    - intros a IHa l IHl alts n E. change (mbind (m_and a) (fun n => m_ors (alts ++ opt_list n) l) = MTree n) in E. destruct (m_and a) as [n1|] eqn:E1; cbn [mbind] in E; [|discriminate E].
      rewrite (IHl _ _ E). change (wanted_ors (OrsCons a l)) with (wanted_and a ++ wanted_ors l). rewrite !flat_map_app, <- (IHa _ eq_refl), app_assoc. reflexivity.
  Qed.

  (** a query without 'NOT' and hyphens *)
  Definition plain (s : list sym) : Prop := ~ In SNot s /\ forall a, In (SAtom a) s -> negated a = false.
  Lemma atoms_app a b : atoms (a ++ b) = atoms a ++ atoms b.
  Proof. apply flat_map_app. Qed.
  Lemma plain_app a b : plain (a ++ b) -> plain a /\ plain b.
  Proof. intros [H1 H2]. split; split; intros; try (apply H2); try (intros H; apply H1); apply in_or_app; auto. Qed.
  Lemma plain_cons s l : plain (s :: l) -> plain l.
  Proof. intros [H1 H2]. split; intros; [intros H; apply H1|apply H2]; right; auto. Qed.
  Lemma atoms_atoms l : atoms (map SAtom l) = l.
  Proof. induction l as [|a l IH]; [reflexivity|]. cbn. unfold atoms in IH. rewrite IH. reflexivity. Qed.
  Lemma wanted_all :
    (forall t, plain (u_term t) -> wanted_term t = atoms (u_term t)) /\
    (forall a, plain (u_and a) -> wanted_and a = atoms (u_and a)) /\
    (forall l, plain (u_ops l) -> wanted_ops l = atoms (u_ops l)) /\
    (forall o, plain (u_or o) -> wanted_or o = atoms (u_or o)) /\
    (forall l, plain (u_ors l) -> wanted_ors l = atoms (u_ors l)).
  Proof.
    apply cst_mut.
    - intros o IH H. cbn [u_term wanted_term] in *. apply plain_cons, plain_app in H as [H _].
      change (SLParen :: u_or o ++ [SRParen]) with ([SLParen] ++ u_or o ++ [SRParen]). rewrite !atoms_app. cbn [atoms flat_map app].
      rewrite app_nil_r. exact (IH H).
    - intros a l [_ H]. cbn [u_term wanted_term] in *. change (SAtom a :: map SAtom l) with (map SAtom (a :: l)) in *. rewrite atoms_atoms.
      set (l' := a :: l) in *. clearbody l'. clear - H. induction l' as [|b l' IH]; [reflexivity|]. cbn [filter].
      rewrite (H b) by (left; reflexivity). cbn [negb]. rewrite IH; [reflexivity|]. intros c Hc. apply H. right. exact Hc.
    - intros t IHt l IHl H. cbn [u_and wanted_and] in *. apply plain_app in H as [H1 H2]. rewrite atoms_app, (IHt H1), (IHl H2). reflexivity.
    - reflexivity.
    - intros op t IHt l IHl H. cbn [u_ops wanted_ops] in *. destruct op; cbn [op_syms] in *.
      + apply plain_cons, plain_app in H as [H1 H2]. change ([SAnd] ++ u_term t ++ u_ops l) with ([SAnd] ++ (u_term t ++ u_ops l)).
        rewrite !atoms_app, (IHt H1), (IHl H2). reflexivity.
      + exfalso. apply (proj1 H). right. left. reflexivity.
      + exfalso. apply (proj1 H). left. reflexivity.
    - intros a IHa l IHl H. cbn [u_or wanted_or] in *. apply plain_app in H as [H1 H2]. rewrite atoms_app, (IHa H1), (IHl H2). reflexivity.
    - reflexivity.
    - intros a IHa l IHl H. cbn [u_ors wanted_ors] in *. apply plain_cons, plain_app in H as [H1 H2].
      change (SOr :: u_and a ++ u_ors l) with ([SOr] ++ u_and a ++ u_ors l). rewrite !atoms_app, (IHa H1), (IHl H2). reflexivity.
  Qed.
End Terms.

Lemma exec_terms n : executable n -> terms n <> [].
Proof.
  induction n as [w|ws|w|m IH|l IH|l IH] using node_induction; cbn [terms]; try discriminate; intros He.
  - destruct He.
  - apply exec_and in He as [(pos & neg & -> & Hp & Hn) He]. destruct pos as [|p pos]; [congruence|].
    apply Forall_inv in IH. apply Forall_inv in He. specialize (Hn p (or_introl eq_refl)).
    assert (Hx : executable p) by (destruct p; [exact He|exact He|exact He|discriminate Hn|exact He|exact He]). clear He. rename Hx into He. cbn [app flat_map]. intros E. apply app_eq_nil in E as [E _]. exact (IH He E).
  - apply exec_or in He as [Hp He]. destruct l as [|p l]; [congruence|].
    apply Forall_inv in IH. apply Forall_inv in He. cbn [flat_map]. intros E. apply app_eq_nil in E as [E _]. exact (IH He E).
Qed.

Section QueryTerms.
  Variable space : char -> bool.
  Variable upper : str -> str.
  Variable parse_terms : str -> list str.
  Variable is_glob : str -> bool.
  Hypothesis hyphen : space 45 = false.
  Notation parseQuery := (parseQuery space upper parse_terms is_glob).
  Notation syms_of q := (symbols upper (tokenize space q)).

  Lemma query_terms q n ign : parseQuery q = POk (n, ign) ->
    exists! c, u_or c = syms_of q /\ terms n = flat_map (term_of parse_terms) (wanted_or c).
  Proof.
    intros H. destruct (query_parsed space upper parse_terms is_glob hyphen q n ign H) as (c & Hc & Hm & _). exists c. split.
    - split; [exact Hc|]. destruct (meaning_terms parse_terms is_glob) as (_ & _ & _ & Ho & _). rewrite <- (Ho _ _ Hm).
      unfold oterms. cbn. rewrite app_nil_r. reflexivity.
    - intros c' [Hc' _]. assert (HO : OrExpr (syms_of q)) by (apply OrExpr_iff; exists c; exact Hc).
      destruct (grammar_unambiguous _ HO) as (c0 & _ & Hu). rewrite <- (Hu c Hc). apply Hu. exact Hc'.
  Qed.
  Lemma query_terms_plain q n ign : parseQuery q = POk (n, ign) ->
    ~ In SNot (syms_of q) -> (forall a, In (SAtom a) (syms_of q) -> negated a = false) ->
    terms n = flat_map (term_of parse_terms) (atoms (syms_of q)).
  Proof.
    intros H H1 H2. destruct (query_terms q n ign H) as (c & (Hc & ->) & _). f_equal. rewrite <- Hc in *. 
    destruct wanted_all as (_ & _ & _ & Ho & _). apply Ho. split; assumption.
  Qed.
  Lemma query_terms_some q n ign : parseQuery q = POk (n, ign) -> terms n <> [].
  Proof. intros H. apply exec_terms. exact (query_executable space upper parse_terms is_glob hyphen q n ign H). Qed.
End QueryTerms.
