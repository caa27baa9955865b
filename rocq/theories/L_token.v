(** * Lemmas about the query tokenizer *)
From Verif Require Import S_parser M_parser Regex SMap Ord.

Section Token.
  Variable space : char -> bool.
  Hypothesis hyphen : space 45 = false.
  Local Notation ac := (atom_char space).

  Definition quoted_at (s : str) : option str :=
    match s with
    | c :: s' => if c =? 34 then match drop_while not_quote s' with c' :: r => if c' =? 34 then Some r else None | [] => None end else None
    | [] => None
    end.
  Definition run_at (s : str) : option str :=
    match s with c :: s' => if ac c then Some (drop_while ac s') else None | [] => None end.
  Local Notation rx_quoted := (RSeq (lit 34) (RSeq (RStar (RChr not_quote)) (lit 34))).
  Local Notation rx_run := (RPlus (RChr ac)).

  Lemma mt_quoted s : mt rx_quoted s = match quoted_at s with Some r => [r] | None => [] end.
  Proof.
    destruct s as [|c s]; [reflexivity|].
    change (mt rx_quoted (c :: s)) with (flat_map (mt (RSeq (RStar (RChr not_quote)) (lit 34))) (if c =? 34 then [s] else [])).
    cbn [quoted_at]. destruct (c =? 34); [|reflexivity]. cbn [flat_map]. rewrite app_nil_r.
    change (mt (RSeq (RStar (RChr not_quote)) (lit 34)) s) with (flat_map (mt (lit 34)) (mt (RStar (RChr not_quote)) s)).
    rewrite mt_star_chr. destruct (munch_hd not_quote s) as (l & -> & Hl). cbn [flat_map].
    replace (flat_map (mt (lit 34)) l) with (@nil str).
    - rewrite app_nil_r. destruct (drop_while not_quote s) as [|c' r]; [reflexivity|]. cbn. destruct (c' =? 34); reflexivity.
    - symmetry. clear -Hl. induction l as [|s' l IH]; [reflexivity|]. cbn [flat_map].
      destruct (Hl s' (or_introl eq_refl)) as (c & s'' & -> & Hc). cbn. unfold not_quote in Hc.
      destruct (c =? 34); [discriminate|]. apply IH. intros s1 Hs1. apply Hl. right; exact Hs1.
  Qed.
  Lemma mt_run s : hd_error (mt rx_run s) = run_at s.
  Proof.
    pose proof (re_match_chr_star ac ac s) as H. unfold re_match in H. unfold RPlus. rewrite H. destruct s; reflexivity.
  Qed.
  Definition body_at (s : str) : option str := match quoted_at s with Some r => Some r | None => run_at s end.
  Definition tok_at (s : str) : option str :=
    match s with
    | [] => None
    | c :: s' =>
        if is_paren c then Some s'
        else if c =? 45 then match quoted_at s' with Some r => Some r | None => run_at s end
        else body_at s
    end.
  Lemma hd_body s : hd_error (mt (RAlt rx_quoted rx_run) s) = body_at s.
  Proof.
    change (mt (RAlt rx_quoted rx_run) s) with (mt rx_quoted s ++ mt rx_run s).
    rewrite hd_error_app, mt_run, mt_quoted. unfold body_at. destruct (quoted_at s); reflexivity.
  Qed.
  Lemma token_match s : re_match (rx_token space) s = tok_at s.
  Proof.
    unfold re_match, rx_token. destruct s as [|c s]; [reflexivity|].
    set (body := RAlt rx_quoted rx_run).
    change (mt (RAlt (RChr is_paren) (RSeq (ROpt (lit 45)) body)) (c :: s))
      with ((if is_paren c then [s] else []) ++ flat_map (mt body) ((if c =? 45 then [s] else []) ++ [c :: s])).
    cbn [tok_at]. destruct (is_paren c) eqn:Ep; [reflexivity|]. cbn [app]. destruct (c =? 45) eqn:Ec.
    - cbn [app flat_map]. rewrite hd_error_app. unfold body. rewrite hd_body. rewrite app_nil_r, hd_body.
      apply Z.eqb_eq in Ec; subst c. unfold body_at. cbn [quoted_at Z.eqb Pos.eqb].
      destruct (quoted_at s) as [r|]; [reflexivity|]. cbn [run_at].
      assert (Hh : ac 45 = true) by (unfold atom_char; rewrite hyphen; reflexivity). rewrite Hh.
      destruct s as [|c s]; [reflexivity|]. cbn [run_at drop_while]. destruct (ac c); reflexivity.
    - cbn [app flat_map]. rewrite app_nil_r. apply hd_body.
  Qed.

  Lemma quoted_at_spec s r : quoted_at s = Some r <-> exists q, quoted q /\ s = q ++ r.
  Proof.
    unfold quoted_at. destruct s as [|c s].
    - split; [discriminate|]. intros (q & (b & -> & _) & H). discriminate.
    - destruct (c =? 34) eqn:Ec.
      + apply Z.eqb_eq in Ec; subst c. pose proof (take_drop not_quote s) as Htd. pose proof (take_while_all not_quote s) as Hta. split.
        * destruct (drop_while not_quote s) as [|c' r']; [discriminate|]. destruct (c' =? 34) eqn:Ec'; [|discriminate].
          intros [= <-]. apply Z.eqb_eq in Ec'; subst c'. exists (34 :: take_while not_quote s ++ [34]). split.
          -- exists (take_while not_quote s). split; [reflexivity|]. intros Hin. rewrite Forall_forall in Hta. apply Hta in Hin. discriminate.
          -- cbn. rewrite <- app_assoc. cbn. rewrite Htd. reflexivity.
        * intros (q & (b & -> & Hb) & H). cbn in H. injection H as ->. rewrite <- app_assoc. cbn [app].
          rewrite drop_while_app_all.
          -- cbn. reflexivity.
          -- apply Forall_forall. intros x Hx. unfold not_quote. destruct (x =? 34) eqn:E; [|reflexivity].
             apply Z.eqb_eq in E; subst. contradiction.
      + split; [discriminate|]. intros (q & (b & -> & _) & H). injection H as -> _. discriminate.
  Qed.
  Lemma quoted_at_none s : quoted_at (34 :: s) = None <-> ~ In 34 s.
  Proof.
    split.
    - intros H Hin. apply in_split in Hin as (a & b & ->).
      (* the first quote *)
      assert (Hx : forall s, In 34 s -> exists u v, s = u ++ 34 :: v /\ ~ In 34 u).
      { clear. induction s as [|c s IH]; [intros []|]. intros [->|Hin]; [exists [], s; auto|].
        destruct (Z.eq_dec c 34) as [->|Hc]; [exists [], s; auto|]. destruct (IH Hin) as (u & v & -> & Hu).
        exists (c :: u), v. split; [reflexivity|]. intros [?|?]; contradiction. }
      destruct (Hx (a ++ 34 :: b)) as (u & v & E & Hu); [apply in_or_app; right; left; reflexivity|]. rewrite E in H.
      assert (Hs : quoted_at (34 :: u ++ 34 :: v) = Some v).
      { apply quoted_at_spec. exists (34 :: u ++ [34]). split; [exists u; auto|]. cbn. rewrite <- app_assoc. reflexivity. }
      congruence.
    - intros H. destruct (quoted_at (34 :: s)) as [r|] eqn:E; [|reflexivity]. apply quoted_at_spec in E as (q & (b & -> & _) & E).
      injection E as ->. destruct H. rewrite <- app_assoc. apply in_or_app. right; left; reflexivity.
  Qed.
  Lemma ordinary_iff c : ac c = true <-> ordinary space c.
  Proof.
    unfold atom_char, ordinary, is_paren. rewrite negb_true_iff, !orb_false_iff, !Z.eqb_neq. tauto.
  Qed.

  Lemma find_hit s r : tok_at s = Some r -> (length r < length s)%nat ->
    tokenize space s = firstn (length s - length r) s :: tokenize space r.
  Proof. intros H Hl. unfold tokenize. apply findall_match; [rewrite token_match; exact H|exact Hl]. Qed.
  Lemma find_miss c s : tok_at (c :: s) = None -> tokenize space (c :: s) = tokenize space s.
  Proof. intros H. unfold tokenize. apply findall_skip. rewrite token_match. exact H. Qed.
  Lemma find_app t r : t <> [] -> tok_at (t ++ r) = Some r -> tokenize space (t ++ r) = t :: tokenize space r.
  Proof.
    intros Hne H. rewrite (find_hit _ _ H).
    - rewrite app_length. replace (length t + length r - length r)%nat with (length t) by lia.
      rewrite firstn_app, Nat.sub_diag. cbn. rewrite firstn_all, app_nil_r. reflexivity.
    - rewrite app_length. destruct t; [contradiction|]. cbn. lia.
  Qed.

  Lemma tok_at_paren c s : c = 40 \/ c = 41 -> tok_at (c :: s) = Some s.
  Proof. intros [->| ->]; reflexivity. Qed.
  Lemma tok_at_quoted q s : quoted q -> tok_at (q ++ s) = Some s.
  Proof.
    intros Hq. assert (H : quoted_at (q ++ s) = Some s) by (apply quoted_at_spec; exists q; auto).
    destruct Hq as (b & -> & Hb). cbn [app tok_at] in *. change (is_paren 34) with false. cbn [Z.eqb Pos.eqb]. unfold body_at.
    rewrite H. reflexivity.
  Qed.
  Lemma tok_at_hyphen q s : quoted q -> tok_at (45 :: q ++ s) = Some s.
  Proof.
    intros Hq. cbn [tok_at]. change (is_paren 45) with false. cbn [Z.eqb Pos.eqb].
    assert (H : quoted_at (q ++ s) = Some s) by (apply quoted_at_spec; exists q; auto). rewrite H. reflexivity.
  Qed.
  Lemma run_app w s : w <> [] -> Forall (ordinary space) w -> (forall c s', s = c :: s' -> ~ ordinary space c) ->
    run_at (w ++ s) = Some s.
  Proof.
    intros Hne Hw Hs. destruct w as [|c w]; [contradiction|]. inversion Hw as [|? ? Hc Hw']; subst. cbn [app run_at].
    apply ordinary_iff in Hc. rewrite Hc. f_equal. rewrite drop_while_app_all.
    - destruct s as [|x s]; [reflexivity|]. cbn. destruct (ac x) eqn:E; [|reflexivity]. apply ordinary_iff in E.
      destruct (Hs x s eq_refl E).
    - eapply Forall_impl; [|exact Hw']. intros x. apply ordinary_iff.
  Qed.
  Lemma quoted_at_head c s : c <> 34 -> quoted_at (c :: s) = None.
  Proof. intros H. cbn. apply Z.eqb_neq in H. rewrite H. reflexivity. Qed.
  Lemma tok_at_run w s : w <> [] -> Forall (ordinary space) w -> (forall c s', s = c :: s' -> ~ ordinary space c) ->
    (w = [45] -> forall q s', quoted q -> s <> q ++ s') -> tok_at (w ++ s) = Some s.
  Proof.
    intros Hne Hw Hs Hh. pose proof (run_app w s Hne Hw Hs) as Hr. destruct w as [|c w]; [contradiction|].
    inversion Hw as [|? ? Hc Hw']; subst. destruct Hc as (C1 & C2 & C3 & C4). cbn [app tok_at] in *.
    assert (Ep : is_paren c = false) by (unfold is_paren; lia). rewrite Ep. destruct (c =? 45) eqn:Ec.
    - destruct (quoted_at (w ++ s)) as [r|] eqn:Eq; [|exact Hr]. exfalso.
      apply Z.eqb_eq in Ec; subst c. apply quoted_at_spec in Eq as (q & Hq & E). destruct w as [|x w].
      + apply (Hh eq_refl q r Hq E).
      + destruct Hq as (b & -> & _). injection E as -> _. inversion Hw' as [|? ? Hx _]; subst. destruct Hx as (_ & _ & Hx & _). contradiction.
    - unfold body_at. rewrite quoted_at_head by exact C3. exact Hr.
  Qed.
  Lemma tok_at_space c s : space c = true -> c <> 40 -> c <> 41 -> c <> 34 -> tok_at (c :: s) = None.
  Proof.
    intros Hc H1 H2 H3. cbn [tok_at]. assert (Ep : is_paren c = false) by (unfold is_paren; lia). rewrite Ep.
    destruct (c =? 45) eqn:Ec; [apply Z.eqb_eq in Ec; subst; congruence|]. unfold body_at.
    rewrite quoted_at_head by exact H3. cbn [run_at]. unfold atom_char. rewrite Hc, orb_true_r. reflexivity.
  Qed.
  Lemma tok_at_quote s : ~ In 34 s -> tok_at (34 :: s) = None.
  Proof.
    intros H. cbn [tok_at]. change (is_paren 34) with false. cbn [Z.eqb Pos.eqb]. unfold body_at.
    rewrite (proj2 (quoted_at_none s) H). cbn [run_at]. unfold atom_char. rewrite orb_true_r. reflexivity.
  Qed.

  Lemma tokens_unique s ts : tokens space s ts -> ts = tokenize space s.
  Proof.
    induction 1 as [|c s ts Hc _ IH|q s ts Hq _ IH|q s ts Hq _ IH|w s ts Hne Hw Hs Hh _ IH|c s ts H1 H2 H3 H4 _ IH|s ts Hs _ IH].
    - reflexivity.
    - change (c :: s) with ([c] ++ s). rewrite find_app; [rewrite <- IH; reflexivity|discriminate|apply tok_at_paren, Hc].
    - rewrite find_app; [rewrite <- IH; reflexivity|destruct Hq as (b & -> & _); discriminate|apply tok_at_quoted, Hq].
    - change (45 :: q ++ s) with ((45 :: q) ++ s). rewrite find_app; [rewrite <- IH; reflexivity|discriminate|apply tok_at_hyphen, Hq].
    - rewrite find_app; [rewrite <- IH; reflexivity|exact Hne|apply tok_at_run; assumption].
    - rewrite find_miss by (apply tok_at_space; assumption). exact IH.
    - rewrite find_miss by (apply tok_at_quote; assumption). exact IH.
  Qed.
  Lemma tokens_ok s : tokens space s (tokenize space s).
  Proof.
    remember (length s) as n eqn:En. assert (Hn : (length s <= n)%nat) by lia. clear En.
    revert s Hn; induction n as [|n IH]; intros s Hn.
    { destruct s; [constructor|cbn in Hn; lia]. }
    assert (Hgo : forall t r, t <> [] -> s = t ++ r -> tok_at (t ++ r) = Some r ->
      (tokens space r (tokenize space r) -> tokens space (t ++ r) (t :: tokenize space r)) -> tokens space s (tokenize space s)).
    { intros t r Hne -> Ht Hk. rewrite find_app by assumption. apply Hk, IH. rewrite app_length in Hn. destruct t; [contradiction|]. cbn in Hn. lia. }
    destruct s as [|c s]; [constructor|]. cbn [length] in Hn.
    destruct (is_paren c) eqn:Ep.
    { assert (Hc : c = 40 \/ c = 41) by (unfold is_paren in Ep; lia).
      apply (Hgo [c] s); [discriminate|reflexivity|apply tok_at_paren, Hc|apply tok_paren, Hc]. }
    destruct (Z.eq_dec c 34) as [->|Hq].
    { destruct (quoted_at (34 :: s)) as [r|] eqn:Eq.
      - apply quoted_at_spec in Eq as (q & Hq & E).
        apply (Hgo q r); [destruct Hq as (b & -> & _); discriminate|exact E|apply tok_at_quoted, Hq|apply tok_quoted, Hq].
      - apply quoted_at_none in Eq. rewrite find_miss by (apply tok_at_quote, Eq). apply tok_lone_quote; [exact Eq|apply IH; lia]. }
    destruct (space c) eqn:Es.
    { rewrite find_miss by (apply tok_at_space; [exact Es|unfold is_paren in Ep; lia..]).
      apply tok_space; [exact Es|unfold is_paren in Ep; lia..|apply IH; lia]. }
    assert (Hc : ordinary space c) by (unfold ordinary; unfold is_paren in Ep; splits; [lia|lia|exact Hq|exact Es]).
    destruct (Z.eq_dec c 45) as [->|Hh].
    { destruct (quoted_at s) as [r|] eqn:Eqs.
      - apply quoted_at_spec in Eqs as (q & Hqq & ->).
        apply (Hgo (45 :: q) r); [discriminate|reflexivity|apply tok_at_hyphen, Hqq|intros Ht; apply tok_not_quoted; assumption].
      - pose (w := 45 :: take_while ac s). assert (E : 45 :: s = w ++ drop_while ac s) by (unfold w; cbn; rewrite take_drop; reflexivity).
        assert (Hw : Forall (ordinary space) w).
        { constructor; [exact Hc|]. eapply Forall_impl; [|apply take_while_all]. intros x. apply ordinary_iff. }
        assert (Hd : forall x s', drop_while ac s = x :: s' -> ~ ordinary space x).
        { intros x s' Ex. apply drop_while_head in Ex. rewrite <- ordinary_iff. congruence. }
        assert (Hnh : w = [45] -> forall q s', quoted q -> drop_while ac s <> q ++ s').
        { intros Ew q s' Hqq Ed. assert (Htw : take_while ac s = []) by (unfold w in Ew; injection Ew; auto).
          assert (Es' : s = drop_while ac s) by (rewrite <- (take_drop ac s) at 1; rewrite Htw; reflexivity).
          assert (quoted_at s = Some s') by (apply quoted_at_spec; exists q; split; [exact Hqq|rewrite Es'; exact Ed]). congruence. }
        apply (Hgo w (drop_while ac s)); [discriminate|exact E|apply tok_at_run; try assumption; discriminate|].
        intros Ht. apply tok_run; try assumption. discriminate. }
    pose (w := c :: take_while ac s). assert (E : c :: s = w ++ drop_while ac s) by (unfold w; cbn; rewrite take_drop; reflexivity).
    assert (Hw : Forall (ordinary space) w).
    { constructor; [exact Hc|]. eapply Forall_impl; [|apply take_while_all]. intros x. apply ordinary_iff. }
    assert (Hd : forall x s', drop_while ac s = x :: s' -> ~ ordinary space x).
    { intros x s' Ex. apply drop_while_head in Ex. rewrite <- ordinary_iff. congruence. }
    assert (Hnh : w = [45] -> forall q s', quoted q -> drop_while ac s <> q ++ s') by (intros Ew; unfold w in Ew; injection Ew as Ew _; congruence).
    apply (Hgo w (drop_while ac s)); [discriminate|exact E|apply tok_at_run; try assumption; discriminate|].
    intros Ht. apply tok_run; try assumption. discriminate.
  Qed.
  Lemma tokens_functional s ts ts' : tokens space s ts -> tokens space s ts' -> ts = ts'.
  Proof. intros H1 H2. apply tokens_unique in H1, H2. congruence. Qed.
  Lemma tokens_nonempty s : Forall (fun t => t <> []) (tokenize space s).
  Proof.
    induction (tokens_ok s) as [|c s ts Hc _ IH|q s ts Hq _ IH|q s ts Hq _ IH|w s ts Hne Hw Hs Hh _ IH|c s ts H1 H2 H3 H4 _ IH|s ts Hs _ IH]; auto;
      constructor; auto; try discriminate. destruct Hq as (b & -> & _); discriminate.
  Qed.
End Token.
