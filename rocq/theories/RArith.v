(** * RArith: the real numbers as an arithmetic

    Scores computed in exact arithmetic.  Only the definitions and theorems that use
    this file depend on the axioms of the standard library's real numbers. *)
From Coq Require Import Reals Lra.
From Verif Require Import Arith S_score SMap Ord.

#[global] Instance Arith_R : Arith R := {|
  f0 := 0%R; f1 := 1%R; fadd := Rplus; fsub := Rminus; fmul := Rmult; fdiv := Rdiv;
  fsqrt := sqrt; fln := ln; fofZ := IZR;
  feqb := fun x y => if Req_EM_T x y then true else false;
  fleb := fun x y => if Rle_dec x y then true else false;
  f32 := fun x => x |}.

Ltac rarith := cbv [f0 f1 fadd fsub fmul fdiv fsqrt fln fofZ feqb fleb f32 Arith_R] in *.

#[global] Instance ExactArith_R : ExactArith R.
Proof.
  constructor; rarith; intros; try ring.
  destruct (Req_EM_T x y); split; congruence.
Qed.

Lemma fleb_R x y : fleb x y = true <-> (x <= y)%R.
Proof. rarith. destruct (Rle_dec x y); split; congruence || contradiction || auto. Qed.
Lemma fleb_R_false x y : fleb x y = false <-> (y < x)%R.
Proof. rarith. destruct (Rle_dec x y); split; intros; try discriminate; try reflexivity; lra. Qed.
Lemma feqb_R_false x y : feqb x y = false <-> x <> y.
Proof. rarith. destruct (Req_EM_T x y); split; congruence || contradiction || auto. Qed.

Lemma ln_ge0 x : (1 <= x)%R -> (0 <= ln x)%R.
Proof.
  intros H. destruct (Req_dec x 1) as [->|Hx]; [rewrite ln_1; lra|].
  rewrite <- ln_1. left. apply ln_increasing; lra.
Qed.
Lemma IZR_ge1 n : 1 <= n -> (1 <= IZR n)%R.
Proof. intros H. apply (IZR_le 1). exact H. Qed.
Lemma sqrt_ge1 x : (1 <= x)%R -> (1 <= sqrt x)%R.
Proof. intros H. rewrite <- sqrt_1. apply sqrt_le_1; lra. Qed.
Lemma Rdiv_nonneg x y : (0 <= x)%R -> (0 < y)%R -> (0 <= x / y)%R.
Proof. intros Hx Hy. apply Rmult_le_pos; [exact Hx|]. left. apply Rinv_0_lt_compat. exact Hy. Qed.
Lemma Rdiv_pos x y : (0 < x)%R -> (0 < y)%R -> (0 < x / y)%R.
Proof. intros Hx Hy. apply Rmult_lt_0_compat; [exact Hx|]. apply Rinv_0_lt_compat. exact Hy. Qed.

#[global] Instance SafeArith_R : SafeArith R.
Proof.
  constructor.
  - intros n H. rewrite fleb_R_false, fleb_R. rarith. pose proof (IZR_ge1 n H). pose proof (ln_ge0 _ H0). lra.
  - intros x y. rewrite !fleb_R. rarith. intros Hx [->|Hy]; nra.
  - intros x. rewrite !fleb_R. rarith. intros H. split; [lra|]. apply sqrt_ge1. exact H.
  - rewrite fleb_R. rarith. lra.
  - intros x. rewrite fleb_R, feqb_R_false. rarith. lra.
  - intros n m Hn Hm. rewrite fleb_R_false, feqb_R_false. rarith. pose proof (IZR_ge1 n Hn). pose proof (IZR_le 0 m Hm).
    split; [lra|]. pose proof (Rdiv_nonneg (IZR m) (IZR n)). lra.
  - intros y n m _ _. cbn zeta. rewrite !fleb_R. rarith. intros Hy. pose proof (Rle_0_sqr (ln (1 + IZR m / IZR n))). unfold Rsqr in *. lra.
  - intros x. rewrite feqb_R_false. destruct (feqb x f0) eqn:E; [rarith; lra|]. apply feqb_R_false in E. rarith. lra.
Qed.

(** The Okapi parameters for which scoring is well defined. *)
Lemma okapi_len_nonneg K1 B T N len : (0 <= K1)%R -> (0 <= B <= 1)%R -> 1 <= T -> 1 <= N -> 1 <= len ->
  (0 <= K1 * (1 - B + B * IZR len / (IZR T / IZR N)))%R.
Proof.
  intros HK HB HT HN Hl. pose proof (IZR_ge1 T HT). pose proof (IZR_ge1 N HN). pose proof (IZR_ge1 len Hl).
  assert (0 < IZR T / IZR N)%R by (apply Rdiv_pos; lra).
  assert (0 <= B * IZR len / (IZR T / IZR N))%R by (apply Rdiv_nonneg; [nra|lra]).
  apply Rmult_le_pos; lra.
Qed.
Lemma OkapiSafe_R K1 B : (0 <= K1)%R -> (0 <= B <= 1)%R -> OkapiSafe K1 B.
Proof.
  intros HK HB. constructor.
  - intros T N HT HN. rewrite !feqb_R_false. rarith. pose proof (IZR_ge1 T HT). pose proof (IZR_ge1 N HN). split; [lra|].
    assert (0 < IZR T / IZR N)%R by (apply Rdiv_pos; lra). lra.
  - intros T N len f HT HN Hl Hf. rewrite feqb_R_false. rarith. pose proof (IZR_ge1 f Hf).
    pose proof (okapi_len_nonneg K1 B T N len HK HB HT HN Hl). lra.
Qed.
(** The values of the class: okapiindex.py:218-219, okascore.c:38-39. *)
#[global] Instance OkapiSafe_default : OkapiSafe 1.2%R 0.75%R.
Proof. apply OkapiSafe_R; lra. Qed.
