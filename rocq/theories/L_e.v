(** * The number e: bounds, and that it is irrational *)
From Coq Require Import ZArith Reals Lra Lia Psatz.
From Verif Require Import Prelude.

Definition e_term (k : nat) : R := (/ INR (fact k) * 1 ^ k)%R.
Definition e_sum (n : nat) : R := sum_f_R0 e_term n.
Fixpoint zfact (n : nat) : Z := match n with O => 1 | S m => Z.of_nat n * zfact m end.
(** [n! * e_sum n] *)
Fixpoint enum (n : nat) : Z := match n with O => 1 | S m => Z.of_nat n * enum m + 1 end.

Lemma e_cv : infinite_sum e_term (exp 1).
Proof. unfold exp. destruct (exist_exp 1) as [l Hl]. exact Hl. Qed.
Lemma fact_zfact n : INR (fact n) = IZR (zfact n).
Proof.
  induction n as [|n IH]; [reflexivity|]. change (fact (S n)) with (S n * fact n)%nat. rewrite mult_INR, IH.
  cbn [zfact]. rewrite mult_IZR, <- INR_IZR_INZ. reflexivity.
Qed.
Lemma zfact_pos n : 1 <= zfact n.
Proof. induction n as [|n IH]; cbn [zfact]; lia. Qed.
Lemma zfact_posR n : (1 <= IZR (zfact n))%R.
Proof. apply (IZR_le 1). apply zfact_pos. Qed.
Lemma term_zfact k : e_term k = (/ IZR (zfact k))%R.
Proof. unfold e_term. rewrite pow1, Rmult_1_r, fact_zfact. reflexivity. Qed.
Lemma term_pos k : (0 < e_term k)%R.
Proof. rewrite term_zfact. apply Rinv_0_lt_compat. pose proof (zfact_posR k). lra. Qed.
Lemma e_sum_enum n : (IZR (zfact n) * e_sum n = IZR (enum n))%R.
Proof.
  induction n as [|n IH].
  - unfold e_sum. cbn [sum_f_R0]. rewrite term_zfact. cbn [zfact enum]. lra.
  - unfold e_sum in *. cbn [sum_f_R0]. rewrite term_zfact. rewrite Rmult_plus_distr_l, Rinv_r by (pose proof (zfact_posR (S n)); lra).
    cbn [zfact enum]. rewrite plus_IZR, !mult_IZR, <- IH. ring.
Qed.
Lemma e_sum_S n : e_sum (S n) = (e_sum n + e_term (S n))%R.
Proof. reflexivity. Qed.
Lemma e_sum_le n m : (e_sum n <= e_sum (n + m))%R.
Proof.
  induction m as [|m IH]; [rewrite Nat.add_0_r; lra|]. rewrite Nat.add_succ_r, e_sum_S. pose proof (term_pos (S (n + m))). lra.
Qed.

Definition gap (n : nat) : R := (/ (IZR (zfact n) * IZR (Z.of_nat n)))%R.
Lemma gap_pos n : (1 <= n)%nat -> (0 < gap n)%R.
Proof.
  intros H. apply Rinv_0_lt_compat, Rmult_lt_0_compat; [pose proof (zfact_posR n); lra|]. apply (IZR_lt 0). lia.
Qed.
Lemma gap_step n : (1 <= n)%nat -> (e_term (S n) + gap (S n) <= gap n)%R.
Proof.
  intros H. rewrite term_zfact. unfold gap. cbn [zfact]. rewrite mult_IZR. rewrite Nat2Z.inj_succ, <- Z.add_1_r, plus_IZR.
  pose proof (zfact_posR n) as HF. assert (HN : (1 <= IZR (Z.of_nat n))%R) by (apply (IZR_le 1); lia).
  set (f := IZR (zfact n)) in *. set (k := IZR (Z.of_nat n)) in *.
  replace (/ ((k + 1) * f) + / ((k + 1) * f * (k + 1)))%R with ((k + 2) / (f * ((k + 1) * (k + 1))))%R by (field; lra).
  apply (Rmult_le_reg_r (f * ((k + 1) * (k + 1)) * k)).
  - repeat apply Rmult_lt_0_compat; lra.
  - unfold Rdiv. replace ((k + 2) * / (f * ((k + 1) * (k + 1))) * (f * ((k + 1) * (k + 1)) * k))%R with ((k + 2) * k)%R by (field; lra).
    replace (/ (f * k) * (f * ((k + 1) * (k + 1)) * k))%R with ((k + 1) * (k + 1))%R by (field; lra). nra.
Qed.
Lemma e_sum_upper n m : (1 <= n)%nat -> (e_sum (n + m) + gap (n + m) <= e_sum n + gap n)%R.
Proof.
  intros H. induction m as [|m IH]; [rewrite Nat.add_0_r; lra|]. rewrite Nat.add_succ_r, e_sum_S.
  pose proof (gap_step (n + m) ltac:(lia)). lra.
Qed.

Lemma cv_le (u : nat -> R) l c n : infinite_sum u l -> (forall m, (sum_f_R0 u (n + m) <= c)%R) -> (l <= c)%R.
Proof.
  intros H Hc. apply Rnot_lt_le. intros Hl. destruct (H (l - c)%R ltac:(lra)) as [N HN].
  specialize (HN (n + N)%nat ltac:(lia)). specialize (Hc N). unfold R_dist in HN. apply Rabs_def2 in HN. lra.
Qed.
Lemma cv_ge (u : nat -> R) l c n : infinite_sum u l -> (forall m, (c <= sum_f_R0 u (n + m))%R) -> (c <= l)%R.
Proof.
  intros H Hc. apply Rnot_lt_le. intros Hl. destruct (H (c - l)%R ltac:(lra)) as [N HN].
  specialize (HN (n + N)%nat ltac:(lia)). specialize (Hc N). unfold R_dist in HN. apply Rabs_def2 in HN. lra.
Qed.
Lemma e_bounds n : (1 <= n)%nat -> (e_sum n < exp 1 <= e_sum n + gap n)%R.
Proof.
  intros H. split.
  - apply (Rlt_le_trans _ (e_sum (S n))); [rewrite e_sum_S; pose proof (term_pos (S n)); lra|].
    apply (cv_ge e_term _ _ (S n) e_cv). intros m. apply e_sum_le.
  - apply (cv_le e_term _ _ n e_cv). intros m. pose proof (e_sum_upper n m H). pose proof (gap_pos (n + m) ltac:(lia)).
    unfold e_sum in *. lra.
Qed.

Lemma zfact_divides q : (1 <= q)%nat -> exists c, zfact (S q) = Z.of_nat q * c.
Proof. intros H. destruct q as [|q]; [lia|]. exists (Z.of_nat (S (S q)) * zfact q). cbn [zfact]. lia. Qed.
(** e is not a quotient of integers *)
Lemma e_irrational p q : (0 < q)%Z -> exp 1 <> (IZR p / IZR q)%R.
Proof.
  intros Hq E. set (n := Z.to_nat q). assert (Hn : (1 <= n)%nat) by lia.
  destruct (zfact_divides n Hn) as [c Hc]. replace (Z.of_nat n) with q in Hc by lia.
  destruct (e_bounds (S n) ltac:(lia)) as [H1 H2].
  assert (HqR : (1 <= IZR q)%R) by (apply (IZR_le 1); lia).
  pose proof (zfact_posR (S n)) as HF.
  assert (Ez : (IZR (zfact (S n)) * exp 1 = IZR (c * p))%R).
  { rewrite E, Hc, !mult_IZR. field. lra. }
  assert (L1 : (IZR (enum (S n)) < IZR (c * p))%R).
  { rewrite <- Ez, <- e_sum_enum. apply Rmult_lt_compat_l; lra. }
  assert (L2 : (IZR (c * p) < IZR (enum (S n)) + 1)%R).
  { rewrite <- Ez, <- e_sum_enum. apply (Rle_lt_trans _ (IZR (zfact (S n)) * (e_sum (S n) + gap (S n)))%R).
    - apply Rmult_le_compat_l; lra.
    - rewrite Rmult_plus_distr_l. apply Rplus_lt_compat_l. unfold gap.
      assert (Hk : (2 <= IZR (Z.of_nat (S n)))%R) by (apply (IZR_le 2); lia).
      replace (IZR (zfact (S n)) * / (IZR (zfact (S n)) * IZR (Z.of_nat (S n))))%R with (/ IZR (Z.of_nat (S n)))%R by (field; lra).
      apply (Rmult_lt_reg_r (IZR (Z.of_nat (S n)))); [lra|]. rewrite Rinv_l by lra. lra. }
  apply lt_IZR in L1. rewrite <- plus_IZR in L2. apply lt_IZR in L2. lia.
Qed.
(** so no logarithm of a rational number is 1 *)
Lemma ln_rational p q : (0 < q)%Z -> ln (IZR p / IZR q) <> 1%R.
Proof.
  intros Hq E. destruct (Rle_dec (IZR p / IZR q) 0) as [H|H].
  - unfold ln in E. destruct (Rlt_dec 0 (IZR p / IZR q)); lra.
  - apply (e_irrational p q Hq). rewrite <- E. apply exp_ln. lra.
Qed.

(** e to nineteen digits *)
Lemma e_digits : (IZR (enum 21) / IZR (zfact 21) < exp 1 <= IZR (enum 21) / IZR (zfact 21) + / (IZR (zfact 21) * 21))%R.
Proof.
  destruct (e_bounds 21 ltac:(lia)) as [H1 H2]. pose proof (zfact_posR 21).
  replace (IZR (enum 21) / IZR (zfact 21))%R with (e_sum 21); [exact (conj H1 H2)|].
  rewrite <- e_sum_enum. field. lra.
Qed.
