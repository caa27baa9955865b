(** * A property of scores that every query keeps: any bound that rounding and adding keep *)
From Verif Require Import L_setops L_tree S_tree S_setops M_setops M_tree S_parser L_query M_textindex S_textindex S_score L_found L_textindex Arith SMap Ord.

Definition zsum (l : list Z) : Z := fold_right Z.add 0 l.
Lemma zsum_app a b : zsum (a ++ b) = zsum a + zsum b.
Proof. induction a as [|x a IH]; cbn [app zsum fold_right]; [reflexivity|]. fold (zsum (a ++ b)) (zsum a). lia. Qed.
Lemma zsum_perm a b : Permutation a b -> zsum a = zsum b.
Proof. unfold zsum. induction 1; cbn [fold_right]; lia. Qed.
Lemma zsum_nonneg l : Forall (fun c => 0 <= c) l -> 0 <= zsum l.
Proof. induction 1; cbn [zsum fold_right]; [lia|]. fold (zsum l). lia. Qed.

Section Bound.
  Context {F : Type} {AF : Arith F}.
  Local Notation wmap := (smap Z F).
  (** [P c v]: a bound for a score of [c] words *)
  Variable P : Z -> F -> Prop.
  Hypothesis P_mono : forall c c' v, c <= c' -> P c v -> P c' v.
  Hypothesis P_f32 : forall c v, P c v -> P c (f32 v).
  Hypothesis P_one : forall c v, P c v -> P c (scaled v f1).
  Hypothesis P_add : forall c c' u v, P c u -> P c' v -> P (c + c') (f32 (fadd u v)).

  Definition bounded (c : Z) (m : wmap) : Prop := forall k v, get m k = Some v -> P c v.
  Definition good (c : Z) (p : wmap * F) : Prop := 0 <= c /\ forall k v, get (fst p) k = Some v ->
    P c (scaled v (snd p)) /\ (feqb (snd p) f1 = true -> P c v).
  Lemma bounded_good c m : 0 <= c -> bounded c m -> good c (m, f1).
  Proof. intros Hc H. split; [exact Hc|]. intros k v Hv. cbn [fst snd] in *. split; [apply P_one|intros _]; exact (H k v Hv). Qed.
  Lemma goods_nonneg cs L : Forall2 good cs L -> 0 <= zsum cs.
  Proof. intros H. apply zsum_nonneg. induction H as [|c p cs L [Hc _] _ IH]; constructor; assumption. Qed.

  Lemma good_alone c m w : good c (m, w) -> forall k v, alone m w k = Some v -> P c v.
  Proof.
    intros [_ H] k v. unfold alone. destruct (get m k) as [u|] eqn:E; [|discriminate]. intros [= <-]. destruct (H k u E) as [H1 H2].
    cbn [snd] in *. destruct (feqb w f1); auto.
  Qed.
  Lemma plan_bound t : forall cs, Forall2 good cs (inputs t) -> forall k v, value_at t k = Some v ->
    P (zsum cs) (scaled v (weight_of t)) /\ match t with Both _ _ => P (zsum cs) v | _ => True end.
  Proof.
    induction t as [m w|a IHa b IHb]; intros cs Hcs k v Hv.
    - cbn [inputs] in Hcs. inversion Hcs as [|c ? ? ? Hc Hn]; subst. inversion Hn; subst. cbn [zsum fold_right]. rewrite Z.add_0_r.
      cbn [value_at] in Hv. split; [|exact Logic.I]. exact (proj1 (proj2 Hc k v Hv)).
    - cbn [inputs] in Hcs. apply Forall2_app_inv_r in Hcs as (c1 & c2 & H1 & H2 & ->). rewrite zsum_app. cbn [value_at weight_of] in *.
      assert (N1 : forall u, value_at a k = Some u -> P (zsum c1) (scaled u (weight_of a))) by (intros u Hu; exact (proj1 (IHa c1 H1 k u Hu))).
      assert (N2 : forall u, value_at b k = Some u -> P (zsum c2) (scaled u (weight_of b))) by (intros u Hu; exact (proj1 (IHb c2 H2 k u Hu))).
      pose proof (goods_nonneg _ _ H1). pose proof (goods_nonneg _ _ H2).
      assert (G : P (zsum c1 + zsum c2) v); [|split; [apply P_one|]; exact G].
      destruct (value_at a k) as [x|], (value_at b k) as [y|]; try discriminate; injection Hv as <-.
      + apply P_add; [apply N1|apply N2]; reflexivity.
      + apply (P_mono (zsum c1)); [lia|]. apply N1; reflexivity.
      + apply (P_mono (zsum c2)); [lia|]. apply N2; reflexivity.
  Qed.
  Lemma goods_perm cs L L' : Permutation L L' -> Forall2 good cs L -> exists cs', zsum cs' = zsum cs /\ Forall2 good cs' L'.
  Proof.
    intros HP HF. assert (HF' : Forall2 (fun p c => good c p) L cs) by (clear -HF; induction HF; constructor; assumption).
    destruct (Forall2_perm _ _ _ _ HP HF') as (cs' & Hc & HF''). exists cs'. split; [symmetry; apply zsum_perm, Hc|].
    clear -HF''. induction HF''; constructor; assumption.
  Qed.
  Lemma union_bound cs L r : Forall2 good cs L -> mass_weightedUnion L = Ok r -> bounded (zsum cs) r.
  Proof.
    intros H E k v Hv. destruct (union_rounded L) as (r' & E' & Hr). rewrite E in E'. injection E' as <-.
    destruct L as [|[m w] [|q L]].
    - subst r. rewrite get_empty in Hv. discriminate.
    - inversion H as [|c ? ? ? Hc Hn]; subst. inversion Hn; subst. cbn [zsum fold_right]. rewrite Z.add_0_r.
      rewrite Hr in Hv. exact (good_alone c m w Hc k v Hv).
    - destruct Hr as (t & HP & Ht). rewrite Ht in Hv. apply Permutation_sym in HP.
      destruct (goods_perm _ _ _ HP H) as (cs' & Ec & H'). rewrite <- Ec. pose proof (plan_bound t cs' H' k v Hv) as [_ G].
      destruct t as [m' w'|a b]; [|exact G]. apply Permutation_length in HP. discriminate.
  Qed.
  Lemma running_bound rest : forall cs c a, Forall2 good cs rest -> (forall u, a = Some u -> P c u) -> forall k v,
    running k a rest = Some v -> P (c + zsum cs) v.
  Proof.
    induction rest as [|[m w] rest IH]; intros cs c a H Ha k v Hv; inversion H as [|c0 ? cs' ? Hc Hn]; subst; cbn [zsum fold_right running] in *.
    - rewrite Z.add_0_r. exact (Ha v Hv).
    - fold (zsum cs'). rewrite Z.add_assoc. revert Hv. apply IH; [exact Hn|]. intros u Hu. destruct a as [x|]; [|discriminate].
      destruct (get m k) as [y|] eqn:E; [|discriminate]. injection Hu as <-. apply P_add; [apply P_one; apply Ha; reflexivity|].
      exact (proj1 (proj2 Hc k y E)).
  Qed.
  Lemma inter_bound cs L r : Forall2 good cs L -> mass_weightedIntersection (map (fun p => (Some (fst p), snd p)) L) = Ok r ->
    bounded (zsum cs) r.
  Proof.
    intros H E k v Hv. destruct (inter_rounded (map (fun p => (Some (fst p), snd p)) L)) as (r' & E' & Hr). rewrite E in E'. injection E' as <-.
    rewrite not_none_some in Hr. destruct L as [|[m w] [|q L]].
    - subst r. rewrite get_empty in Hv. discriminate.
    - inversion H as [|c ? ? ? Hc Hn]; subst. inversion Hn; subst. cbn [zsum fold_right]. rewrite Z.add_0_r.
      rewrite Hr in Hv. exact (good_alone c m w Hc k v Hv).
    - destruct Hr as (t & HP & _ & Ht). rewrite Ht in Hv. apply Permutation_sym in HP.
      destruct (goods_perm _ _ _ HP H) as (cs' & <- & H'). clear H HP Ht E.
      destruct t as [|[x wx] [|[y wy] rest]]; try discriminate. cbn [from_the_left] in Hv.
      inversion H' as [|c1 ? cs1 ? Hc1 H1]; subst. inversion H1 as [|c2 ? cs2 ? Hc2 H2]; subst.
      cbn [zsum fold_right]. fold (zsum cs2). rewrite Z.add_assoc. revert Hv. apply running_bound; [exact H2|]. intros u Hu.
      destruct (get x k) as [a|] eqn:Ea; [|discriminate]. destruct (get y k) as [b|] eqn:Eb; [|discriminate]. injection Hu as <-.
      apply P_add; [exact (proj1 (proj2 Hc1 k a Ea))|exact (proj1 (proj2 Hc2 k b Eb))].
  Qed.

  (** ** Trees *)
  Section Trees.
    Variable search : str -> res (option wmap).
    Variable search_phrase : list str -> res (option wmap).
    Variable search_glob : str -> res (option wmap).
    Local Notation exec := (executeQuery search search_phrase search_glob).
    Variable sz : node -> Z.
    Hypothesis sz_nonneg : forall x, 0 <= sz x.
    Definition tsize (n : node) : Z := zsum (map sz (leaves n)).
    Definition leaf_bound (n : node) : Prop := forall x, In x (leaves n) -> forall m, exec x = Ok (Some m) -> bounded (sz x) m.
    Lemma tsize_nonneg n : 0 <= tsize n.
    Proof. apply zsum_nonneg, Forall_forall. intros c Hc. apply in_map_iff in Hc as (x & <- & _). apply sz_nonneg. Qed.
    Lemma tsize_list l : zsum (map sz (flat_map leaves l)) = zsum (map tsize l).
    Proof. induction l as [|x l IH]; [reflexivity|]. cbn [flat_map map]. rewrite map_app, zsum_app, IH. reflexivity. Qed.
    Definition parts_ok (b : Z) (L : list (wmap * F)) : Prop := exists cs, Forall2 good cs L /\ zsum cs <= b.
    Lemma parts_add b n L r : parts_ok b L -> (forall m, r = Some m -> bounded (tsize n) m) -> parts_ok (b + tsize n) (add_part L r).
    Proof.
      intros (cs & H & Hb) Hr. pose proof (tsize_nonneg n) as Hn. destruct r as [m|]; cbn [add_part]; [|exists cs; split; [exact H|lia]].
      exists (cs ++ [tsize n]). split; [|rewrite zsum_app; cbn [zsum fold_right]; fold (zsum cs); lia].
      apply Forall2_app; [exact H|]. constructor; [|constructor]. apply bounded_good; auto.
    Qed.
    Lemma parts_weaken b b' L : b <= b' -> parts_ok b L -> parts_ok b' L.
    Proof. intros H (cs & H1 & H2). exists cs. split; [exact H1|lia]. Qed.
    Definition exec_bound (n : node) : Prop := leaf_bound n -> forall m, exec n = Ok (Some m) -> bounded (tsize n) m.
    Lemma leaf_bound_sub l x : leaf_bound (NAnd l) -> In x l -> leaf_bound x.
    Proof. intros H Hx y Hy. apply H. cbn [leaves]. apply in_flat_map. eauto. Qed.
    Lemma or_parts l : (forall x, In x l -> forall m, exec x = Ok (Some m) -> bounded (tsize x) m) -> forall b L W,
      parts_ok b L -> or_loop search search_phrase search_glob l L = Ok W -> parts_ok (b + zsum (map tsize l)) W.
    Proof.
      induction l as [|x l IH]; intros H b L W HL E; cbn [or_loop map zsum fold_right] in *.
      - injection E as <-. rewrite Z.add_0_r. exact HL.
      - destruct (exec x) as [r|] eqn:Ex; [|discriminate]. cbn [bind] in E. fold (zsum (map tsize l)). rewrite Z.add_assoc.
        revert E. apply IH; [intros y Hy; apply H; right; exact Hy|]. apply parts_add; [exact HL|]. intros m ->. apply H; [left; reflexivity|exact Ex].
    Qed.
    Lemma and_parts l : (forall x, In x l -> forall m, exec x = Ok (Some m) -> bounded (tsize x) m) -> forall b L N L' N',
      parts_ok b L -> and_loop search search_phrase search_glob l L N = Ok (L', N') -> parts_ok (b + zsum (map tsize l)) L'.
    Proof.
      induction l as [|x l IH]; intros H b L N L' N' HL E; cbn [and_loop map zsum fold_right] in *.
      - injection E as <- _. rewrite Z.add_0_r. exact HL.
      - fold (zsum (map tsize l)). rewrite Z.add_assoc. pose proof (tsize_nonneg x).
        assert (IH' := fun b L N => IH (fun y Hy => H y (or_intror Hy)) b L N L' N').
        assert (Hx := H x (or_introl eq_refl)).
        assert (G : (exists m, x = NNot m) \/ (forall m, x <> NNot m)) by (destruct x; [right|right|right|left|right|right]; try discriminate; eauto).
        destruct G as [[m ->]|G].
        + destruct (exec m) as [r|]; [|discriminate]. cbn [bind] in E. revert E. apply IH'. apply (parts_weaken b); [lia|exact HL].
        + assert (E' : (do r <- exec x; and_loop search search_phrase search_glob l (add_part L r) N) = Ok (L', N')) by (destruct x; try exact E; exfalso; eapply G; reflexivity).
          destruct (exec x) as [r|] eqn:Ex; [|discriminate]. cbn [bind] in E'. revert E'. apply IH'. apply parts_add; [exact HL|]. intros m ->. apply Hx. reflexivity.
    Qed.
    Lemma exec_bounded n : exec_bound n.
    Proof.
      induction n as [w|ws|p|n IH|l IH|l IH] using node_induction; intros Hl m E.
      1, 2, 3: unfold tsize; cbn [leaves map zsum fold_right]; rewrite Z.add_0_r; apply Hl; [left; reflexivity|exact E].
      - discriminate.
      - rewrite exec_NAnd in E. destruct (and_loop _ _ _ l [] []) as [[L N]|] eqn:El; [|discriminate]. cbn [bind] in E.
        rewrite Forall_forall in IH.
        destruct (and_parts l (fun x Hx => IH x Hx (leaf_bound_sub l x Hl Hx)) 0 [] [] L N) as (cs & Hcs & Hb); [exists []; split; [constructor|cbn; lia]|exact El|].
        rewrite Z.add_0_l, <- tsize_list in Hb. fold (leaves (NAnd l)) in Hb. unfold and_combine in E.
        destruct (mass_weightedIntersection _) as [r|] eqn:Er; [|discriminate]. cbn [bind] in E.
        pose proof (inter_bound cs L r Hcs Er) as G.
        assert (G' : bounded (tsize (NAnd l)) r) by (intros k v Hv; apply (P_mono (zsum cs)); [exact Hb|exact (G k v Hv)]).
        destruct N as [|p N]; [injection E as <-; exact G'|]. destruct (mass_weightedUnion (p :: N)) as [u|]; [|discriminate].
        cbn [bind] in E. injection E as <-. intros k v Hv. rewrite get_mdiff in Hv. destruct (mem k u); [discriminate|]. exact (G' k v Hv).
      - rewrite exec_NOr in E. destruct (or_loop _ _ _ l []) as [W|] eqn:El; [|discriminate]. cbn [bind] in E.
        rewrite Forall_forall in IH.
        destruct (or_parts l (fun x Hx => IH x Hx (leaf_bound_sub l x Hl Hx)) 0 [] W) as (cs & Hcs & Hb); [exists []; split; [constructor|cbn; lia]|exact El|].
        rewrite Z.add_0_l, <- tsize_list in Hb. fold (leaves (NOr l)) in Hb.
        destruct (mass_weightedUnion W) as [r|] eqn:Er; [|discriminate]. cbn [bind] in E. injection E as <-.
        intros k v Hv. apply (P_mono (zsum cs)); [exact Hb|exact (union_bound cs W r Hcs Er k v Hv)].
    Qed.
  End Trees.
End Bound.
