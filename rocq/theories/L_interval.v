(** * Bounds for floating point operations *)
From Coq Require Import Reals Lra.
From Flocq Require Import Core.Core IEEE754.BinarySingleNaN.
From Verif Require Import Arith S_score S_setops IEEE L_ieee.
Open Scope R_scope.

Local Notation fexp := (SpecFloat.fexp 53 1024).
Local Notation fexp32 := (SpecFloat.fexp 24 128).
Local Notation format := (generic_format radix2 fexp).
Local Notation format32 := (generic_format radix2 fexp32).
Local Notation rnd := (round radix2 fexp ZnearestE).
Local Notation rnd32 := (round radix2 fexp32 ZnearestE).
Local Notation one := (b64_of 1 0).
Local Notation two_to := (bpow radix2).

(** [x] is a finite number between [lo] and [hi] *)
Definition within (lo hi : R) (x : b64) : Prop := is_finite x = true /\ lo <= B2R x <= hi.
Lemma within_weaken lo hi lo' hi' x : within lo hi x -> lo' <= lo -> hi <= hi' -> within lo' hi' x.
Proof. intros [H1 H2] ? ?. split; [exact H1|lra]. Qed.

(** Numbers that are exact in single and in double precision *)
Definition simple (r : R) : Prop := exists m e, r = IZR m * two_to e /\ (Z.abs m <= 2 ^ 24)%Z /\ (-149 <= e <= 90)%Z.
Lemma simple_F2R r : simple r -> exists m e, r = F2R (Float radix2 m e) /\ (Z.abs m < 2 ^ 24)%Z /\ (-149 <= e <= 114)%Z.
Proof.
  intros (m & e & -> & Hm & He). destruct (Z.eq_dec (Z.abs m) (2 ^ 24)) as [E|E].
  - exists (Z.sgn m), (e + 24)%Z. split; [|split; [|lia]].
    + unfold F2R. cbn [Fnum Fexp]. rewrite bpow_plus. replace m with (Z.sgn m * 2 ^ 24)%Z at 1 by lia. rewrite mult_IZR.
      replace (IZR (2 ^ 24)) with (two_to 24) by (rewrite <- IZR_Zpower by lia; reflexivity). ring.
    + destruct (Z.sgn_spec m) as [[_ ->]|[[_ ->]|[_ ->]]]; lia.
  - exists m, e. split; [reflexivity|]. lia.
Qed.
Lemma simple_format r : simple r -> format r.
Proof.
  intros H. destruct (simple_F2R r H) as (m & e & -> & Hm & He). apply generic_format_FLT.
  exists (Float radix2 m e); [reflexivity|cbn [Fnum]; change (radix2 ^ 53)%Z with (2 ^ 53)%Z; lia|unfold SpecFloat.emin; cbn [Fexp]; lia].
Qed.
Lemma simple_format32 r : simple r -> format32 r.
Proof.
  intros H. destruct (simple_F2R r H) as (m & e & -> & Hm & He). apply generic_format_FLT.
  exists (Float radix2 m e); [reflexivity|exact Hm|unfold SpecFloat.emin; cbn [Fexp]; lia].
Qed.
Lemma simple_small r : simple r -> Rabs r < two_to 127.
Proof.
  intros (m & e & -> & Hm & He). rewrite Rabs_mult, (Rabs_pos_eq (two_to e)) by apply bpow_ge_0. rewrite <- abs_IZR.
  apply Rle_lt_trans with (two_to 24 * two_to 90).
  - apply Rmult_le_compat; [apply IZR_le; lia|apply bpow_ge_0| |apply bpow_le; lia].
    rewrite <- IZR_Zpower by lia. apply IZR_le. exact Hm.
  - rewrite <- bpow_plus. apply bpow_lt. lia.
Qed.
Lemma simple_pow e : (-149 <= e <= 90)%Z -> simple (two_to e).
Proof. intros H. exists 1%Z, e. split; [ring|]. split; [cbn; lia|exact H]. Qed.
Lemma simple_Z n : (Z.abs n <= 2 ^ 24)%Z -> simple (IZR n).
Proof. intros H. exists n, 0%Z. split; [cbn [bpow]; ring|]. split; [exact H|lia]. Qed.
Lemma simple_mul n e : (Z.abs n <= 2 ^ 24)%Z -> (-149 <= e <= 90)%Z -> simple (IZR n * two_to e).
Proof. intros H He. exists n, e. split; [reflexivity|split; assumption]. Qed.

(** Rounding keeps bounds that are themselves exact *)
Definition bound64 (r : R) : Prop := format r /\ Rabs r < two_to 1024.
Lemma simple_bound r : simple r -> bound64 r.
Proof. intros H. split; [apply simple_format, H|]. eapply Rlt_trans; [apply simple_small, H|]. apply bpow_lt. lia. Qed.
Lemma B2R_bound (x : b64) : bound64 (B2R x).
Proof. split; [apply format_B2R|apply abs_B2R_lt_emax]. Qed.
Lemma rnd_in lo hi r : bound64 lo -> bound64 hi -> lo <= r <= hi -> lo <= rnd r <= hi /\ Rabs (rnd r) < two_to 1024.
Proof.
  intros [L1 L2] [H1 H2] Hr. assert (G : lo <= rnd r <= hi).
  { split; [apply round_ge_generic|apply round_le_generic]; try apply valid_rnd_N; try assumption; try apply (fexp_correct 53 1024 prec64); lra. }
  split; [exact G|]. apply Rabs_def2 in L2. apply Rabs_def2 in H2. apply Rabs_def1; lra.
Qed.
Lemma rnd32_in lo hi r : simple lo -> simple hi -> lo <= r <= hi -> lo <= rnd32 r <= hi /\ Rabs (rnd32 r) < two_to 128.
Proof.
  intros L H Hr. assert (G : lo <= rnd32 r <= hi).
  { split; [apply round_ge_generic|apply round_le_generic]; try apply valid_rnd_N; try (apply simple_format32; assumption);
      try apply (fexp_correct 24 128 prec32); lra. }
  split; [exact G|]. pose proof (simple_small lo L) as L2. pose proof (simple_small hi H) as H2.
  assert (two_to 127 < two_to 128) by (apply bpow_lt; lia).
  apply Rabs_def2 in L2. apply Rabs_def2 in H2. apply Rabs_def1; lra.
Qed.

Lemma add_in lo hi x y : is_finite x = true -> is_finite y = true -> bound64 lo -> bound64 hi -> lo <= B2R x + B2R y <= hi ->
  within lo hi (Bplus mode_NE x y).
Proof.
  intros Fx Fy Hlo Hhi Hr. destruct (rnd_in lo hi _ Hlo Hhi Hr) as [G1 G2].
  pose proof (Bplus_correct 53 1024 prec64 emax64 mode_NE x y Fx Fy) as C. cbn [round_mode] in C.
  rewrite Rlt_bool_true in C by exact G2. destruct C as (C1 & C2 & _). split; [exact C2|]. rewrite C1. exact G1.
Qed.
Lemma sub_in lo hi x y : is_finite x = true -> is_finite y = true -> bound64 lo -> bound64 hi -> lo <= B2R x - B2R y <= hi ->
  within lo hi (Bminus mode_NE x y).
Proof.
  intros Fx Fy Hlo Hhi Hr. destruct (rnd_in lo hi _ Hlo Hhi Hr) as [G1 G2].
  pose proof (Bminus_correct 53 1024 prec64 emax64 mode_NE x y Fx Fy) as C. cbn [round_mode] in C.
  rewrite Rlt_bool_true in C by exact G2. destruct C as (C1 & C2 & _). split; [exact C2|]. rewrite C1. exact G1.
Qed.
Lemma mul_in lo hi x y : is_finite x = true -> is_finite y = true -> bound64 lo -> bound64 hi -> lo <= B2R x * B2R y <= hi ->
  within lo hi (Bmult mode_NE x y).
Proof.
  intros Fx Fy Hlo Hhi Hr. destruct (rnd_in lo hi _ Hlo Hhi Hr) as [G1 G2].
  pose proof (Bmult_correct 53 1024 prec64 emax64 mode_NE x y) as C. cbn [round_mode] in C.
  rewrite Rlt_bool_true in C by exact G2. destruct C as (C1 & C2 & _). split; [rewrite C2, Fx, Fy; reflexivity|]. rewrite C1. exact G1.
Qed.
Lemma div_in lo hi x y : is_finite x = true -> B2R y <> 0 -> bound64 lo -> bound64 hi -> lo <= B2R x / B2R y <= hi ->
  within lo hi (Bdiv mode_NE x y).
Proof.
  intros Fx Hy Hlo Hhi Hr. destruct (rnd_in lo hi _ Hlo Hhi Hr) as [G1 G2].
  pose proof (Bdiv_correct 53 1024 prec64 emax64 mode_NE x y Hy) as C. cbn [round_mode] in C.
  rewrite Rlt_bool_true in C by exact G2. destruct C as (C1 & C2 & _). split; [rewrite C2; exact Fx|]. rewrite C1. exact G1.
Qed.
Lemma sqrt_in lo hi x : is_finite x = true -> 0 < B2R x -> bound64 lo -> bound64 hi -> lo <= sqrt (B2R x) <= hi ->
  within lo hi (Bsqrt mode_NE x).
Proof.
  intros Fx Hx Hlo Hhi Hr. destruct (rnd_in lo hi _ Hlo Hhi Hr) as [G1 G2].
  pose proof (Bsqrt_correct 53 1024 prec64 emax64 mode_NE x) as (C1 & C2 & _). cbn [round_mode] in C1.
  destruct (pos_finite x Fx Hx) as (m & e & Hb & ->). split; [exact C2|]. rewrite C1. exact G1.
Qed.
Lemma format32_64 r : format32 r -> format r.
Proof.
  intros H. apply FLT_format_generic in H; [|reflexivity]. destruct H as [f H1 H2 H3]. apply generic_format_FLT. exists f; [exact H1| |].
  - eapply Z.lt_trans; [exact H2|]. reflexivity.
  - unfold SpecFloat.emin in *. lia.
Qed.
Lemma store_in lo hi x : within lo hi x -> simple lo -> simple hi -> within lo hi (of_b32 (to_b32 x)).
Proof.
  intros [Fx Hx] Hlo Hhi. assert (G : is_finite (to_b32 x) = true /\ lo <= B2R (to_b32 x) <= hi).
  { destruct x as [s|s| |s m e Hb]; try discriminate; [split; [reflexivity|exact Hx]|].
    cbn [to_b32 B2R] in *. destruct (rnd32_in lo hi _ Hlo Hhi Hx) as [G1 G2].
    pose proof (binary_normalize_correct 24 128 prec32 emax32 mode_NE (cond_Zopp s (Zpos m)) e false) as C. cbv zeta in C. cbn [round_mode] in C.
    rewrite Rlt_bool_true in C by exact G2. destruct C as (C1 & C2 & _). unfold b32_of. split; [exact C2|]. rewrite C1. exact G1. }
  destruct G as [F1 G1]. destruct (to_b32 x) as [s|s| |s m e Hb] eqn:E; try discriminate; [split; [reflexivity|exact G1]|].
  cbn [of_b32 B2R] in *. pose proof (generic_format_B2R 24 128 (B754_finite s m e Hb)) as HF. cbn [B2R] in HF.
  pose proof (abs_B2R_lt_emax 24 128 (B754_finite s m e Hb)) as HA. cbn [B2R] in HA.
  assert (R : rnd (F2R (Float radix2 (cond_Zopp s (Zpos m)) e)) = F2R (Float radix2 (cond_Zopp s (Zpos m)) e)).
  { apply round_generic; [apply valid_rnd_N|]. apply format32_64, HF. }
  destruct (of_R (cond_Zopp s (Zpos m)) e) as [C1 C2].
  - rewrite R. eapply Rlt_trans; [exact HA|]. apply bpow_lt. lia.
  - split; [exact C1|]. rewrite C2, R. exact G1.
Qed.
Lemma ofZ_in lo hi n : (1 <= n)%Z -> bound64 lo -> bound64 hi -> lo <= IZR n <= hi -> within lo hi (b64_ofZ n).
Proof.
  intros Hn Hlo Hhi Hr. destruct (rnd_in lo hi _ Hlo Hhi Hr) as [G1 G2].
  destruct (of_R n 0) as [C1 C2]; replace (F2R (Float radix2 n 0)) with (IZR n) in * by (unfold F2R; cbn; ring).
  - exact G2.
  - unfold b64_ofZ. destruct (b64_of n 0) as [s|s| |s m e Hb]; try discriminate; (split; [reflexivity|]; rewrite C2; exact G1).
Qed.
