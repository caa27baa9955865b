(** * Lemmas about IEEE arithmetic: it is safe for the indexes *)
From Coq Require Import Reals Lra.
From Flocq Require Import Core.Core IEEE754.BinarySingleNaN.
From Verif Require Import Arith S_score IEEE.

Local Notation fexp := (SpecFloat.fexp 53 1024).
Local Notation format := (generic_format radix2 fexp).
Local Notation rnd := (round radix2 fexp ZnearestE).
Local Notation zero := (B754_zero false : b64).
Local Notation one := (b64_of 1 0).
Local Notation inf := (B754_infinity false : b64).

(** [ge c x]: [x] is a number, and at least [c]; [okv c x]: the same or NaN *)
Definition ge (c : R) (x : b64) : Prop := x = inf \/ (is_finite x = true /\ (c <= B2R x)%R).
Definition okv (c : R) (x : b64) : Prop := x = B754_nan \/ ge c x.

Lemma one_finite : is_finite one = true.
Proof. vm_compute. reflexivity. Qed.
Lemma format_B2R (x : b64) : format (B2R x).
Proof. apply generic_format_B2R. Qed.
Lemma of_R m e : (Rabs (rnd (F2R (Float radix2 m e))) < bpow radix2 1024)%R ->
  is_finite (b64_of m e) = true /\ B2R (b64_of m e) = rnd (F2R (Float radix2 m e)).
Proof.
  intros H. pose proof (binary_normalize_correct 53 1024 prec64 emax64 mode_NE m e false) as C. cbv zeta in C.
  rewrite Rlt_bool_true in C by exact H. destruct C as (C1 & C2 & _). split; assumption.
Qed.
Lemma format_1 : format 1%R.
Proof. replace 1%R with (B2R (@Bone 53 1024 prec64 emax64)) by apply Bone_correct. apply format_B2R. Qed.
Lemma B2R_one : B2R one = 1%R.
Proof.
  destruct (of_R 1 0) as [_ H].
  - unfold F2R. cbn [Fnum Fexp bpow]. rewrite Rmult_1_r. rewrite round_generic; [|apply valid_rnd_N|exact format_1].
    rewrite Rabs_R1. apply (bpow_lt radix2 0 1024). reflexivity.
  - rewrite H. unfold F2R. cbn [Fnum Fexp bpow]. rewrite Rmult_1_r. apply round_generic; [apply valid_rnd_N|exact format_1].
Qed.

Lemma leb_ge (a x : b64) : is_finite a = true -> (Bleb a x = true <-> ge (B2R a) x).
Proof.
  intros Ha. destruct (is_finite x) eqn:Hx.
  - rewrite (Bleb_correct _ _ _ _ Ha Hx). split.
    + intros H. right. split; [exact Hx|]. destruct (Rle_bool_spec (B2R a) (B2R x)); [assumption|discriminate].
    + intros [->|[_ H]]; [discriminate|]. apply Rle_bool_true, H.
  - destruct x as [s|[]| |s m e Hb]; try discriminate.
    + split; [|intros [H|[H _]]; discriminate]. destruct a as [| | |[]]; discriminate.
    + split; [intros _; left; reflexivity|]. intros _. destruct a as [| | |[]]; try discriminate; reflexivity.
    + split; [|intros [H|[H _]]; discriminate]. destruct a as [| | |[]]; discriminate.
Qed.
Lemma leb_ge1 x : Bleb one x = true <-> ge 1 x.
Proof. rewrite (leb_ge _ _ one_finite), B2R_one. reflexivity. Qed.
Lemma leb_ge0 x : Bleb zero x = true <-> ge 0 x.
Proof. rewrite leb_ge by reflexivity. reflexivity. Qed.
Lemma ge_weaken c c' x : (c' <= c)%R -> ge c x -> ge c' x.
Proof. intros Hc [->|[H1 H2]]; [left; reflexivity|right]. split; [exact H1|lra]. Qed.
Lemma eqb_zero x c : (0 < c)%R -> okv c x -> Beqb x zero = false.
Proof.
  intros Hc [->|[->|[H1 H2]]]; [reflexivity|reflexivity|]. rewrite Beqb_correct by (assumption || reflexivity).
  apply Req_bool_false. cbn [B2R]. lra.
Qed.
Lemma leb_zero x c : (0 < c)%R -> okv c x -> Bleb x zero = false.
Proof.
  intros Hc [->|[->|[H1 H2]]]; [reflexivity|reflexivity|]. rewrite Bleb_correct by (assumption || reflexivity).
  apply Rle_bool_false. cbn [B2R]. lra.
Qed.

Lemma overflow_inf (z : b64) s : B2SF z = binary_overflow 53 1024 mode_NE s -> z = B754_infinity s.
Proof. destruct z as [| | |]; cbn; intros H; try discriminate. congruence. Qed.
Lemma sign_pos (x : b64) : (0 < B2R x)%R -> Bsign x = false.
Proof.
  destruct x as [s|s| |s m e Hb]; cbn [B2R Bsign]; intros H; try lra.
  destruct s; [|reflexivity]. exfalso. cbn [cond_Zopp] in H.
  assert (F2R (Float radix2 (Zneg m) e) < 0)%R by (apply F2R_lt_0; reflexivity).
  change (- Z.pos m) with (Z.neg m) in H. lra.
Qed.
Lemma pos_finite (x : b64) : is_finite x = true -> (0 < B2R x)%R -> exists m e H, x = B754_finite false m e H.
Proof.
  intros Hf Hx. pose proof (sign_pos x Hx) as Hs. destruct x as [s|s| |s m e Hb]; cbn in *; try lra; try discriminate.
  subst s. eauto.
Qed.
Lemma round_big r : ~ (Rabs (rnd r) < bpow radix2 1024)%R -> r <> 0%R.
Proof.
  intros H ->. apply H. rewrite round_0, Rabs_R0 by apply valid_rnd_N. apply bpow_gt_0.
Qed.
Ltac bool_case C := match type of C with context [Rlt_bool ?x ?y] => destruct (Rlt_bool_spec x y) as [Hlt|Hge] end.

Lemma rnd_ge c r : format c -> (c <= r)%R -> (c <= rnd r)%R.
Proof. intros Hc H. apply round_ge_generic; [apply fexp_correct; reflexivity|apply valid_rnd_N|exact Hc|exact H]. Qed.

Lemma add_ge c x y : (0 <= c)%R -> format c -> ge c x -> ge 0 y -> ge c (Bplus mode_NE x y).
Proof.
  intros H0 Hc Hx Hy. destruct Hx as [->|[Fx Hx]].
  { destruct Hy as [->|[Fy _]]; [left; reflexivity|]. destruct y; try discriminate; left; reflexivity. }
  destruct Hy as [->|[Fy Hy]]. { destruct x; try discriminate; left; reflexivity. }
  pose proof (Bplus_correct 53 1024 prec64 emax64 mode_NE x y Fx Fy) as C. cbn [round_mode] in C. bool_case C.
  - destruct C as (C1 & C2 & _). right. split; [exact C2|]. rewrite C1. apply rnd_ge; [exact Hc|lra].
  - destruct C as (C1 & C2). apply overflow_inf in C1. left. rewrite C1. f_equal.
    assert (Hne : (B2R x + B2R y <> 0)%R) by (apply round_big; lra).
    destruct (Rle_lt_dec (B2R x) 0) as [Hx0|Hx0]; [|apply sign_pos, Hx0]. rewrite C2. apply sign_pos. lra.
Qed.
Lemma add_ok c x y : (0 <= c)%R -> format c -> okv c x -> okv 0 y -> okv c (Bplus mode_NE x y).
Proof.
  intros H0 Hc [->|Hx] [->|Hy].
  - left. reflexivity.
  - left. reflexivity.
  - left. destruct x; reflexivity.
  - right. apply add_ge; assumption.
Qed.
Lemma format_0 : format 0%R.
Proof. apply generic_format_0. Qed.

Lemma mul_fin c x y : (0 <= c)%R -> format c -> is_finite x = true -> is_finite y = true -> (0 <= B2R x)%R -> (0 <= B2R y)%R ->
  (c <= B2R x * B2R y)%R -> ge c (Bmult mode_NE x y).
Proof.
  intros H0 Hc Fx Fy Hx Hy Hm. pose proof (Bmult_correct 53 1024 prec64 emax64 mode_NE x y) as C. cbn [round_mode] in C. bool_case C.
  - destruct C as (C1 & C2 & _). right. rewrite C2, Fx, Fy. split; [reflexivity|]. rewrite C1. apply rnd_ge; assumption.
  - apply overflow_inf in C. left. rewrite C.
    assert (Hne : (B2R x * B2R y <> 0)%R) by (apply round_big; lra).
    assert (Hx1 : B2R x <> 0%R) by (intros E; apply Hne; rewrite E; lra).
    assert (Hy1 : B2R y <> 0%R) by (intros E; apply Hne; rewrite E; lra).
    rewrite (sign_pos x), (sign_pos y) by lra. reflexivity.
Qed.
Lemma sq_ge c a x : (0 <= c)%R -> format c -> (0 <= a)%R -> (c <= a * a)%R -> ge a x -> ge c (Bmult mode_NE x x).
Proof.
  intros H0 Hc Ha Hca [->|[Fx Hx]]; [left; reflexivity|]. apply mul_fin; try assumption; try lra. nra.
Qed.
Lemma mul_ok x y : okv 0 x -> okv 0 y -> okv 0 (Bmult mode_NE x y).
Proof.
  intros [->|Hx]; [left; reflexivity|]. intros [->|Hy]; [left; destruct x; reflexivity|].
  destruct Hx as [->|[Fx Hx]], Hy as [->|[Fy Hy]].
  - right. left. reflexivity.
  - destruct (Req_dec (B2R y) 0) as [E|E].
    + left. destruct y as [s|s| |s m e Hb]; try discriminate; [reflexivity|]. exfalso. cbn [B2R] in E.
      apply eq_0_F2R in E. destruct s; discriminate.
    + right. left. destruct (pos_finite y Fy) as (m & e & Hb & ->); [lra|]. reflexivity.
  - destruct (Req_dec (B2R x) 0) as [E|E].
    + left. destruct x as [s|s| |s m e Hb]; try discriminate; [reflexivity|]. exfalso. cbn [B2R] in E.
      apply eq_0_F2R in E. destruct s; discriminate.
    + right. left. destruct (pos_finite x Fx) as (m & e & Hb & ->); [lra|]. reflexivity.
  - right. apply mul_fin; try assumption; try lra; [apply format_0|]. nra.
Qed.

Lemma div_fin c x y : (0 <= c)%R -> format c -> is_finite x = true -> (0 <= B2R x)%R -> (0 < B2R y)%R ->
  (c <= B2R x / B2R y)%R -> ge c (Bdiv mode_NE x y).
Proof.
  intros H0 Hc Fx Hx Hy Hq. pose proof (Bdiv_correct 53 1024 prec64 emax64 mode_NE x y) as C. cbn [round_mode] in C.
  specialize (C ltac:(lra)). bool_case C.
  - destruct C as (C1 & C2 & _). right. rewrite C2. split; [exact Fx|]. rewrite C1. apply rnd_ge; assumption.
  - apply overflow_inf in C. left. rewrite C.
    assert (Hne : (B2R x / B2R y <> 0)%R) by (apply round_big; lra).
    assert (Hx1 : B2R x <> 0%R). { intros E. apply Hne. rewrite E. unfold Rdiv. lra. }
    rewrite (sign_pos x), (sign_pos y) by lra. reflexivity.
Qed.
Lemma div_ok c x y : (0 < c)%R -> okv 0 x -> okv c y -> okv 0 (Bdiv mode_NE x y).
Proof.
  intros H0 [->|Hx]; [left; reflexivity|]. intros [->|Hy]; [left; destruct x; reflexivity|].
  destruct Hy as [->|[Fy Hy]], Hx as [->|[Fx Hx]].
  - left. reflexivity.
  - right. right. destruct x as [s|s| |s m e Hb]; try discriminate; split; cbn; reflexivity || lra.
  - right. left. destruct (pos_finite y Fy) as (m & e & Hb & ->); [lra|]. reflexivity.
  - right. apply div_fin; try assumption; try lra; [apply format_0|].
    apply Rmult_le_pos; [exact Hx|]. left. apply Rinv_0_lt_compat. lra.
Qed.

Lemma sqrt_ge1 x : ge 1 x -> ge 1 (Bsqrt mode_NE x).
Proof.
  intros [->|[Fx Hx]]; [left; reflexivity|]. destruct (Bsqrt_correct 53 1024 prec64 emax64 mode_NE x) as (C1 & C2 & _).
  destruct (pos_finite x Fx) as (m & e & Hb & E); [lra|]. right. split; [rewrite C2, E; reflexivity|].
  rewrite C1. apply rnd_ge; [exact format_1|]. rewrite <- sqrt_1. apply sqrt_le_1; lra.
Qed.

(** Integers *)
Lemma max_finite : is_finite b64_max = true.
Proof. vm_compute. reflexivity. Qed.
Lemma max_ge1 : (1 <= B2R b64_max)%R.
Proof.
  assert (H : Bleb one b64_max = true) by (vm_compute; reflexivity). apply leb_ge1 in H as [H|[_ H]]; [|exact H].
  exfalso. pose proof max_finite as F. rewrite H in F. discriminate.
Qed.
Lemma format_Z01 z : (z = 0 \/ z = 1)%Z -> format (IZR z).
Proof. intros [->| ->]; [apply format_0|exact format_1]. Qed.
Lemma ofZ_fin k n : (k = 0 \/ k = 1)%Z -> (k <= n)%Z -> is_finite (b64_ofZ n) = true /\ (IZR k <= B2R (b64_ofZ n))%R.
Proof.
  intros Hk Hn.
  pose proof (binary_normalize_correct 53 1024 prec64 emax64 mode_NE n 0 false) as C. cbv zeta in C.
  fold (b64_of n 0) in C. cbn [round_mode] in C.
  replace (F2R (Float radix2 n 0)) with (IZR n) in C by (unfold F2R; cbn; ring).
  bool_case C.
  - destruct C as (C1 & C2 & _).
    assert (E : b64_ofZ n = b64_of n 0).
    { unfold b64_ofZ. destruct (b64_of n 0); try reflexivity. discriminate. }
    rewrite E. split; [exact C2|]. rewrite C1. apply rnd_ge; [apply format_Z01, Hk|]. apply IZR_le, Hn.
  - rewrite Rlt_bool_false in C by (apply (IZR_le 0); lia). apply overflow_inf in C. unfold b64_ofZ. rewrite C. split; [exact max_finite|].
    pose proof max_ge1. destruct Hk as [->| ->]; lra.
Qed.
Lemma ofZ_ge0 n : 0 <= n -> ge 0 (b64_ofZ n).
Proof. intros H. right. apply (ofZ_fin 0); auto. Qed.
Lemma ofZ_ge1 n : 1 <= n -> ge 1 (b64_ofZ n).
Proof. intros H. right. apply (ofZ_fin 1); auto. Qed.

(** ** The classes *)
Section Safe.
  Variable ln : b64 -> b64.
  Hypothesis Hln : sane_ln ln.
  Local Instance AF : Arith b64 := Arith_b64 ln.

  Lemma ln_ge0 x : ge 1 x -> ge 0 (ln x).
  Proof. intros H. apply leb_ge0, Hln, leb_ge1, H. Qed.
  Lemma idf_arg n m : 1 <= n -> 0 <= m -> ge 1 (Bplus mode_NE one (Bdiv mode_NE (b64_ofZ m) (b64_ofZ n))).
  Proof.
    intros Hn Hm. destruct (ofZ_fin 1 n) as [Fn Gn]; auto. destruct (ofZ_fin 0 m) as [Fm Gm]; auto.
    apply add_ge; [lra|exact format_1| |].
    - right. split; [exact one_finite|]. rewrite B2R_one. lra.
    - apply div_fin; try assumption; try lra; [apply format_0|].
      apply Rmult_le_pos; [exact Gm|]. left. apply Rinv_0_lt_compat. lra.
  Qed.

  Lemma safe_b64 : @SafeArith b64 AF.
  Proof.
    constructor.
    - intros n Hn. cbn [fleb fofZ f0 f1 fadd fln AF Arith_b64]. pose proof (ofZ_ge1 n Hn) as H. split.
      + apply (leb_zero _ 1); [lra|]. right. exact H.
      + apply leb_ge1, add_ge; [lra|exact format_1| |apply ln_ge0, H].
        right. split; [exact one_finite|]. rewrite B2R_one. lra.
    - cbn [fleb f0 f1 fadd fmul AF Arith_b64]. intros x y Hx Hy. apply leb_ge1 in Hx. apply leb_ge1.
      assert (Hxx : ge 1 (Bmult mode_NE x x)) by (apply (sq_ge 1 1); try lra; [exact format_1|exact Hx]).
      destruct Hy as [->|Hy].
      + destruct Hxx as [->|[F1 F2]]; [left; reflexivity|]. right.
        pose proof (Bplus_correct 53 1024 prec64 emax64 mode_NE zero (Bmult mode_NE x x) eq_refl F1) as C. cbn [round_mode B2R] in C.
        rewrite Rplus_0_l, round_generic in C by (apply valid_rnd_N || apply format_B2R).
        rewrite Rlt_bool_true in C by apply abs_B2R_lt_emax. destruct C as (C1 & C2 & _). rewrite C1. split; [exact C2|exact F2].
      + apply leb_ge1 in Hy. apply add_ge; [lra|exact format_1|exact Hy|apply (ge_weaken 1); [lra|exact Hxx]].
    - cbn [fleb f0 f1 fsqrt AF Arith_b64]. intros x Hx. apply leb_ge1 in Hx. split.
      + apply leb_ge0. apply (ge_weaken 1); [lra|exact Hx].
      + apply leb_ge1, sqrt_ge1, Hx.
    - reflexivity.
    - cbn [fleb feqb f0 f1 AF Arith_b64]. intros x Hx. apply leb_ge1 in Hx. apply (eqb_zero _ 1); [lra|right; exact Hx].
    - cbn [fleb feqb f0 f1 fofZ fadd fdiv AF Arith_b64]. intros n m Hn Hm. split.
      + apply (eqb_zero _ 1); [lra|right; apply ofZ_ge1, Hn].
      + apply (leb_zero _ 1); [lra|right; apply idf_arg; assumption].
    - cbn [fleb feqb f0 f1 fofZ fadd fdiv fln fmul AF Arith_b64]. intros y n m Hn Hm Hy. cbv zeta. apply leb_ge0 in Hy. apply leb_ge0.
      apply add_ge; [lra|apply format_0|exact Hy|]. apply (sq_ge 0 0); try lra; [apply format_0|]. apply ln_ge0, idf_arg; assumption.
    - cbn [feqb f0 f1 fmul AF Arith_b64]. intros x. destruct (Beqb x zero) eqn:E; [vm_compute; reflexivity|].
      destruct (is_finite x) eqn:Fx.
      + rewrite Beqb_correct in E by (assumption || reflexivity). cbn [B2R] in E.
        assert (Hx : B2R x <> 0%R) by (intros H; rewrite H, Req_bool_true in E by reflexivity; discriminate).
        pose proof (Bmult_correct 53 1024 prec64 emax64 mode_NE x one) as C. cbn [round_mode] in C.
        rewrite B2R_one, Rmult_1_r, round_generic in C by (apply valid_rnd_N || apply format_B2R).
        rewrite Rlt_bool_true in C by apply abs_B2R_lt_emax. destruct C as (C1 & C2 & _). rewrite Fx in C2.
        rewrite Beqb_correct by (rewrite ?C2; reflexivity). rewrite C1. apply Req_bool_false. exact Hx.
      + destruct x as [s|s| |s m e Hb]; try discriminate; [|vm_compute; reflexivity]. destruct s; vm_compute; reflexivity.
  Qed.

  Lemma div_sign x y : ge 1 x -> ge 1 y -> Bdiv mode_NE x y = B754_nan \/ Bsign (Bdiv mode_NE x y) = false.
  Proof.
    intros Hx Hy. destruct (is_nan (Bdiv mode_NE x y)) eqn:En.
    { left. destruct (Bdiv mode_NE x y); try discriminate. reflexivity. }
    right. destruct Hx as [->|[Fx Hx]].
    - destruct Hy as [->|[Fy Hy]]; [discriminate|]. destruct (pos_finite y Fy) as (m & e & Hb & ->); [lra|]. reflexivity.
    - destruct (pos_finite x Fx) as (m & e & Hb & Ex); [lra|]. destruct Hy as [->|[Fy Hy]]; [subst x; reflexivity|].
      pose proof (Bdiv_correct 53 1024 prec64 emax64 mode_NE x y) as C. specialize (C ltac:(lra)). bool_case C.
      + destruct C as (_ & _ & C). rewrite (C En), (sign_pos x), (sign_pos y) by lra. reflexivity.
      + apply overflow_inf in C. rewrite C. cbn [Bsign]. rewrite (sign_pos x), (sign_pos y) by lra. reflexivity.
  Qed.
  Lemma eqb_same (x y : b64) : Bsign x = false -> Bsign y = false -> Beqb x y = true -> x = y.
  Proof.
    intros Sx Sy H. destruct (is_finite x) eqn:Fx, (is_finite y) eqn:Fy.
    - rewrite Beqb_correct in H by assumption. apply (B2R_Bsign_inj 53 1024); try assumption; [|congruence].
      destruct (Req_bool_spec (B2R x) (B2R y)); [assumption|discriminate].
    - destruct x as [| | |[]], y as [|[]| |[]]; cbn in *; try discriminate.
    - destruct x as [|[]| |[]], y as [| | |[]]; cbn in *; try discriminate.
    - destruct x as [|[]| |], y as [|[]| |]; cbn in *; try discriminate; reflexivity.
  Qed.
  Lemma sound_b64 : @SoundEq b64 AF.
  Proof.
    constructor. cbn [fleb feqb f1 fdiv AF Arith_b64]. intros x y x' y' Hx Hy Hx' Hy' H.
    apply leb_ge1 in Hx, Hy, Hx', Hy'. destruct (div_sign x y Hx Hy) as [E|E]; [rewrite E in H; discriminate|].
    destruct (div_sign x' y' Hx' Hy') as [E'|E']; [rewrite E' in H; destruct (Bdiv mode_NE x y) as [|[]| |[]]; discriminate|].
    apply eqb_same; assumption.
  Qed.

  (** the mean of documents' lengths *)
  Lemma abs_max (x : b64) : (Rabs (B2R x) < bpow radix2 1024)%R.
  Proof. apply abs_B2R_lt_emax. Qed.
  Lemma mean_ge T N : 1 <= T -> 1 <= N -> ge (bpow radix2 (-1024)) (Bdiv mode_NE (b64_ofZ T) (b64_ofZ N)).
  Proof.
    intros HT HN. destruct (ofZ_fin 1 T) as [FT GT]; auto. destruct (ofZ_fin 1 N) as [FN GN]; auto.
    apply div_fin; try assumption; try lra.
    - apply bpow_ge_0.
    - apply generic_format_bpow. cbv. discriminate.
    - pose proof (abs_max (b64_ofZ N)) as HM. rewrite Rabs_pos_eq in HM by lra.
      change (-1024)%Z with (- (1024))%Z. rewrite bpow_opp. apply Rle_trans with (1 / B2R (b64_ofZ N))%R.
      + unfold Rdiv. rewrite Rmult_1_l. apply Rinv_le; lra.
      + unfold Rdiv. apply Rmult_le_compat_r; [left; apply Rinv_0_lt_compat; lra|exact GT].
  Qed.

  Lemma okapi_b64 K1 B : is_finite K1 = true -> (0 <= B2R K1)%R -> is_finite B = true -> (0 <= B2R B <= 1)%R ->
    OkapiSafe K1 B.
  Proof.
    intros FK HK FB HB. constructor.
    - intros T N HT HN. cbn [feqb fofZ fdiv f0 AF Arith_b64]. split.
      + apply (eqb_zero _ 1); [lra|right; apply ofZ_ge1, HN].
      + apply (eqb_zero _ (bpow radix2 (-1024))); [apply bpow_gt_0|right; apply mean_ge; assumption].
    - intros T N len f HT HN Hl Hf. cbn [feqb fofZ fdiv fadd fsub fmul f0 f1 AF Arith_b64]. apply (eqb_zero _ 1); [lra|].
      apply add_ok; [lra|exact format_1|right; apply ofZ_ge1, Hf|]. apply mul_ok; [right; right; auto|].
      apply add_ok; [lra|apply format_0| |].
      + right. pose proof (Bminus_correct 53 1024 prec64 emax64 mode_NE one B one_finite FB) as C. cbn [round_mode] in C. bool_case C.
        * destruct C as (C1 & C2 & _). right. split; [exact C2|]. rewrite C1. apply rnd_ge; [apply format_0|]. rewrite B2R_one. lra.
        * destruct C as (C1 & _). apply overflow_inf in C1. left. rewrite C1. f_equal.
      + apply (div_ok (bpow radix2 (-1024))); [apply bpow_gt_0| |right; apply mean_ge; assumption].
        apply mul_ok; right; [right; split; [exact FB|lra]|]. apply ofZ_ge0. lia.
  Qed.
  Lemma okapi_constants : OkapiSafe K1_b64 B_b64.
  Proof.
    assert (H1 : Bleb zero K1_b64 = true) by (vm_compute; reflexivity). apply leb_ge0 in H1.
    assert (H2 : Bleb zero B_b64 = true) by (vm_compute; reflexivity). apply leb_ge0 in H2.
    assert (F1 : is_finite K1_b64 = true) by (vm_compute; reflexivity).
    assert (F2 : is_finite B_b64 = true) by (vm_compute; reflexivity).
    assert (H3 : Bleb B_b64 one = true) by (vm_compute; reflexivity).
    rewrite Bleb_correct, B2R_one in H3 by (exact F2 || exact one_finite).
    destruct (Rle_bool_spec (B2R B_b64) 1) as [H4|]; [|discriminate].
    apply okapi_b64; try assumption.
    - destruct H1 as [H1|[_ H1]]; [rewrite H1 in F1; discriminate|exact H1].
    - destruct H2 as [H2|[_ H2]]; [rewrite H2 in F2; discriminate|lra].
  Qed.
End Safe.

(** The correctly rounded logarithm (for finite positive numbers). *)
Definition b64_ln (x : b64) : b64 :=
  match x with
  | B754_zero _ => B754_infinity true
  | B754_infinity false => B754_infinity false
  | B754_infinity true | B754_nan | B754_finite true _ _ _ => B754_nan
  | B754_finite false _ _ _ =>
      let r := ln (B2R x) in
      b64_of (ZnearestE (scaled_mantissa radix2 fexp r)) (cexp radix2 fexp r)
  end.
Lemma b64_ln_sane : sane_ln b64_ln.
Proof.
  intros x Hx. apply leb_ge1 in Hx. apply leb_ge0. destruct Hx as [->|[Fx Hx]]; [left; reflexivity|].
  destruct (pos_finite x Fx) as (m & e & Hb & ->); [lra|]. unfold b64_ln.
  set (r := ln (B2R (B754_finite false m e Hb))).
  assert (Hr : (0 <= r)%R).
  { subst r. rewrite <- ln_1. destruct Hx as [Hx|Hx]; [left; apply ln_increasing; lra|rewrite <- Hx; right; reflexivity]. }
  pose proof (binary_normalize_correct 53 1024 prec64 emax64 mode_NE (ZnearestE (scaled_mantissa radix2 fexp r)) (cexp radix2 fexp r) false) as C.
  cbv zeta in C. fold (b64_of (ZnearestE (scaled_mantissa radix2 fexp r)) (cexp radix2 fexp r)) in C.
  assert (Hrr : (0 <= F2R (Float radix2 (ZnearestE (scaled_mantissa radix2 fexp r)) (cexp radix2 fexp r)))%R).
  { change (0 <= rnd r)%R. apply rnd_ge; [apply format_0|exact Hr]. }
  cbv zeta. cbn [round_mode] in C. bool_case C.
  - destruct C as (C1 & C2 & _). right. split; [exact C2|]. rewrite C1. apply rnd_ge; [apply format_0|exact Hrr].
  - left. rewrite Rlt_bool_false in C by exact Hrr. apply overflow_inf in C. exact C.
Qed.
Lemma id_sane : sane_ln (fun x => x).
Proof. intros x Hx. apply leb_ge1 in Hx. apply leb_ge0. apply (ge_weaken 1); [lra|exact Hx]. Qed.
Lemma okapi_b64_leb ln (K1 B : b64) : is_finite K1 = true -> is_finite B = true ->
  Bleb zero K1 = true -> Bleb zero B = true -> Bleb B one = true -> OkapiSafe (AF := Arith_b64 ln) K1 B.
Proof.
  intros FK FB HK HB HB1. rewrite Bleb_correct in HK, HB, HB1 by (assumption || reflexivity || exact one_finite).
  rewrite B2R_one in HB1. cbn [B2R] in HK, HB.
  destruct (Rle_bool_spec 0 (B2R K1)); [|discriminate]. destruct (Rle_bool_spec 0 (B2R B)); [|discriminate].
  destruct (Rle_bool_spec (B2R B) 1); [|discriminate]. apply okapi_b64; auto.
Qed.
