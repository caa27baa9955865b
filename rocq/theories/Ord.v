(** * Ord: decidable total orders used as BTree key types. *)
From Verif Require Export Prelude.

Class Ord (K : Type) := {
  cmp : K -> K -> comparison;
  cmp_eq : forall x y, cmp x y = Eq -> x = y;
  cmp_refl : forall x, cmp x x = Eq;
  cmp_sym : forall x y, cmp y x = CompOpp (cmp x y);
  cmp_trans : forall x y z, cmp x y = Lt -> cmp y z = Lt -> cmp x z = Lt
}.

Definition ltb {K} `{Ord K} (x y : K) : bool :=
  match cmp x y with Lt => true | _ => false end.
Definition leb {K} `{Ord K} (x y : K) : bool :=
  match cmp x y with Gt => false | _ => true end.
Definition eqb {K} `{Ord K} (x y : K) : bool :=
  match cmp x y with Eq => true | _ => false end.
Definition lt {K} `{Ord K} (x y : K) : Prop := cmp x y = Lt.
Definition le {K} `{Ord K} (x y : K) : Prop := cmp x y <> Gt.

Section OrdFacts.
  Context {K : Type} `{OK : Ord K}.

  Lemma eqb_eq (x y : K) : eqb x y = true <-> x = y.
  Proof.
    unfold eqb; split.
    - destruct (cmp x y) eqn:E; try discriminate. intros _; apply cmp_eq; exact E.
    - intros ->; rewrite cmp_refl; reflexivity.
  Qed.

  Lemma eqb_refl (x : K) : eqb x x = true.
  Proof. apply eqb_eq; reflexivity. Qed.

  Lemma eqb_neq (x y : K) : eqb x y = false <-> x <> y.
  Proof.
    split.
    - intros H He; apply eqb_eq in He; congruence.
    - intros H; destruct (eqb x y) eqn:E; [apply eqb_eq in E; contradiction|reflexivity].
  Qed.

  Lemma eqb_sym (x y : K) : eqb x y = eqb y x.
  Proof.
    destruct (eqb y x) eqn:E.
    - apply eqb_eq in E; subst; apply eqb_refl.
    - apply eqb_neq in E; apply eqb_neq; congruence.
  Qed.

  Definition key_dec (x y : K) : {x = y} + {x <> y}.
  Proof.
    destruct (eqb x y) eqn:E; [left; apply eqb_eq; exact E|right; apply eqb_neq; exact E].
  Defined.

  Lemma ltb_lt (x y : K) : ltb x y = true <-> lt x y.
  Proof. unfold ltb, lt; destruct (cmp x y); split; congruence. Qed.

  Lemma leb_le (x y : K) : leb x y = true <-> le x y.
  Proof. unfold leb, le; destruct (cmp x y); split; congruence. Qed.

  Lemma lt_irrefl (x : K) : ~ lt x x.
  Proof. unfold lt; rewrite cmp_refl; discriminate. Qed.

  Lemma lt_trans (x y z : K) : lt x y -> lt y z -> lt x z.
  Proof. apply cmp_trans. Qed.

  Lemma lt_not_eq (x y : K) : lt x y -> x <> y.
  Proof. intros H ->; exact (lt_irrefl _ H). Qed.

  Lemma cmp_gt_lt (x y : K) : cmp x y = Gt -> lt y x.
  Proof. unfold lt; intros H; rewrite cmp_sym, H; reflexivity. Qed.

  Lemma cmp_lt_gt (x y : K) : lt x y -> cmp y x = Gt.
  Proof. unfold lt; intros H; rewrite cmp_sym, H; reflexivity. Qed.

  Lemma le_lteq (x y : K) : le x y <-> lt x y \/ x = y.
  Proof.
    unfold le, lt; split.
    - destruct (cmp x y) eqn:E; intros H; [right; apply cmp_eq; exact E|left; reflexivity|congruence].
    - intros [H| ->]; [congruence|rewrite cmp_refl; discriminate].
  Qed.

  Lemma le_refl (x : K) : le x x.
  Proof. apply le_lteq; right; reflexivity. Qed.

  Lemma le_trans (x y z : K) : le x y -> le y z -> le x z.
  Proof.
    rewrite !le_lteq. intros [H1| ->] [H2| ->]; auto.
    left; eapply lt_trans; eassumption.
  Qed.

  Lemma le_antisym (x y : K) : le x y -> le y x -> x = y.
  Proof.
    rewrite !le_lteq. intros [H1|H1] [H2|H2]; auto.
    exfalso; apply (lt_irrefl x); eapply lt_trans; eassumption.
  Qed.

  Lemma le_total (x y : K) : le x y \/ le y x.
  Proof.
    unfold le. rewrite (cmp_sym x y). destruct (cmp x y); simpl; [left|left|right]; discriminate.
  Qed.

  Lemma lt_le_trans (x y z : K) : lt x y -> le y z -> lt x z.
  Proof. rewrite le_lteq. intros H1 [H2| <-]; [eapply lt_trans; eassumption|exact H1]. Qed.

  Lemma le_lt_trans (x y z : K) : le x y -> lt y z -> lt x z.
  Proof. rewrite le_lteq. intros [H1| ->] H2; [eapply lt_trans; eassumption|exact H2]. Qed.

  Lemma lt_le (x y : K) : lt x y -> le x y.
  Proof. intros H; apply le_lteq; left; exact H. Qed.

  Lemma not_lt_le (x y : K) : ~ lt x y -> le y x.
  Proof.
    unfold lt, le. rewrite (cmp_sym x y). destruct (cmp x y); simpl; congruence.
  Qed.

  Lemma not_le_lt (x y : K) : ~ le x y -> lt y x.
  Proof.
    unfold lt, le. rewrite (cmp_sym x y).
    destruct (cmp x y); simpl; intros H; [exfalso; apply H; discriminate|exfalso; apply H; discriminate|reflexivity].
  Qed.

  Lemma lt_not_le (x y : K) : lt x y -> ~ le y x.
  Proof. intros H1 H2. apply (lt_irrefl x). eapply lt_le_trans; eassumption. Qed.

  Lemma cmp_spec (x y : K) : CompareSpec (x = y) (lt x y) (lt y x) (cmp x y).
  Proof.
    destruct (cmp x y) eqn:E; constructor.
    - apply cmp_eq; exact E.
    - exact E.
    - apply cmp_gt_lt; exact E.
  Qed.
End OrdFacts.

(** Integers (docids, wids, code points). *)
#[global] Instance Ord_Z : Ord Z.
Proof.
  refine {| cmp := Z.compare |}.
  - intros x y H; apply Z.compare_eq; exact H.
  - apply Z.compare_refl.
  - intros x y; apply Z.compare_antisym.
  - intros x y z; rewrite !Z.compare_lt_iff; apply Z.lt_trans.
Defined.

Lemma ltZ (x y : Z) : lt x y <-> (x < y)%Z.
Proof. unfold lt; simpl; apply Z.compare_lt_iff. Qed.
Lemma leZ (x y : Z) : le x y <-> (x <= y)%Z.
Proof. unfold le; simpl; reflexivity. Qed.
Lemma eqbZ (x y : Z) : eqb x y = (x =? y)%Z.
Proof.
  destruct (x =? y)%Z eqn:E.
  - apply Z.eqb_eq in E; subst; apply eqb_refl.
  - apply Z.eqb_neq in E; apply eqb_neq; exact E.
Qed.

(** Lists in lexicographic order; for [str] this is Python's string order. *)
Section LexOrd.
  Context {A : Type} `{OA : Ord A}.

  Fixpoint lex_cmp (l1 l2 : list A) : comparison :=
    match l1, l2 with
    | [], [] => Eq
    | [], _ :: _ => Lt
    | _ :: _, [] => Gt
    | x :: l1', y :: l2' =>
        match cmp x y with
        | Eq => lex_cmp l1' l2'
        | c => c
        end
    end.

  Lemma lex_refl l : lex_cmp l l = Eq.
  Proof. induction l as [|x l IH]; simpl; [reflexivity|]. rewrite cmp_refl; exact IH. Qed.

  Lemma lex_eq l1 l2 : lex_cmp l1 l2 = Eq -> l1 = l2.
  Proof.
    revert l2; induction l1 as [|x l1 IH]; intros [|y l2]; simpl; try discriminate; [reflexivity|].
    destruct (cmp x y) eqn:E; try discriminate. intros H. apply cmp_eq in E; subst.
    f_equal; apply IH; exact H.
  Qed.

  Lemma lex_sym l1 l2 : lex_cmp l2 l1 = CompOpp (lex_cmp l1 l2).
  Proof.
    revert l2; induction l1 as [|x l1 IH]; intros [|y l2]; simpl; try reflexivity.
    rewrite (cmp_sym x y). destruct (cmp x y); simpl; try reflexivity. apply IH.
  Qed.

  Lemma lex_trans l1 l2 l3 :
    lex_cmp l1 l2 = Lt -> lex_cmp l2 l3 = Lt -> lex_cmp l1 l3 = Lt.
  Proof.
    revert l2 l3; induction l1 as [|x l1 IH]; intros [|y l2] [|z l3]; simpl;
      try discriminate; try reflexivity.
    destruct (cmp_spec x y) as [E1|E1|E1]; try discriminate;
      destruct (cmp_spec y z) as [E2|E2|E2]; try discriminate; intros H1 H2.
    - subst. rewrite cmp_refl. eapply IH; eassumption.
    - subst. rewrite E2; reflexivity.
    - subst. rewrite E1; reflexivity.
    - rewrite (lt_trans _ _ _ E1 E2). reflexivity.
  Qed.

  #[global] Instance Ord_list : Ord (list A).
  Proof.
    refine {| cmp := lex_cmp |}.
    - intros; apply lex_eq; assumption.
    - apply lex_refl.
    - intros; apply lex_sym.
    - intros x y z; apply lex_trans.
  Defined.
End LexOrd.

#[global] Instance Ord_str : Ord str := @Ord_list Z Ord_Z.

(** Pairs in lexicographic order (Python tuples). *)
Section PairOrd.
  Context {A B : Type} `{OA : Ord A} `{OB : Ord B}.
  Definition pair_cmp (p q : A * B) : comparison :=
    match cmp (fst p) (fst q) with Eq => cmp (snd p) (snd q) | c => c end.
  #[global] Instance Ord_pair : Ord (A * B).
  Proof.
    refine {| cmp := pair_cmp |}; unfold pair_cmp.
    - intros [a b] [a' b']; simpl. destruct (cmp a a') eqn:E; try discriminate.
      intros H. apply cmp_eq in E, H. congruence.
    - intros [a b]; simpl. rewrite !cmp_refl; reflexivity.
    - intros [a b] [a' b']; simpl. rewrite (cmp_sym a a'). destruct (cmp a a'); simpl; try reflexivity.
      apply cmp_sym.
    - intros [a b] [a' b'] [a'' b'']; simpl.
      destruct (cmp_spec a a') as [E1|E1|E1]; try discriminate;
        destruct (cmp_spec a' a'') as [E2|E2|E2]; try discriminate; intros H1 H2; subst.
      + rewrite cmp_refl. eapply cmp_trans; eassumption.
      + rewrite E2; reflexivity.
      + rewrite E1; reflexivity.
      + rewrite (lt_trans _ _ _ E1 E2). reflexivity.
  Defined.
End PairOrd.

Lemma lt_pair {A B} `{Ord A} `{Ord B} (a a' : A) (b b' : B) :
  lt (a, b) (a', b') <-> lt a a' \/ (a = a' /\ lt b b').
Proof.
  unfold lt at 1. cbn. unfold pair_cmp; cbn. destruct (cmp_spec a a') as [E|E|E].
  - subst. split; [auto|]. intros [H1|[_ H1]]; [destruct (lt_irrefl _ H1)|exact H1].
  - split; auto.
  - split; [discriminate|]. intros [H1|[-> _]].
    + destruct (lt_irrefl a). eapply lt_trans; eassumption.
    + destruct (lt_irrefl _ E).
Qed.

Lemma ltb_negb_leb' {K} `{Ord K} (x y : K) : ltb x y = negb (leb y x).
Proof. unfold ltb, leb. rewrite (cmp_sym x y). destruct (cmp x y); reflexivity. Qed.
Lemma leb_total {K} `{Ord K} (x y : K) : leb x y = true \/ leb y x = true.
Proof. rewrite !leb_le. apply le_total. Qed.
Lemma leb_trans {K} `{Ord K} (x y z : K) : leb x y = true -> leb y z = true -> leb x z = true.
Proof. rewrite !leb_le. apply le_trans. Qed.
