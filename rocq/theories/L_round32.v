(** * The rounding of counts stored in an IF BTree is that of binary32 *)
From Coq Require Import Reals Lra.
From Flocq Require Import Core.Core IEEE754.BinarySingleNaN.
From Verif Require Import M_okapi IEEE.
Open Scope R_scope.

Notation fexp32 := (SpecFloat.fexp 24 128).
Notation round32 := (round radix2 fexp32 (round_mode mode_NE)).

Lemma mag_log2 (n : Z) : (0 < n)%Z -> (mag radix2 (IZR n) = Z.log2 n + 1 :> Z)%Z.
Proof.
  intros H. apply mag_unique_pos. pose proof (Z.log2_spec n H) as [H1 H2]. pose proof (Z.log2_nonneg n).
  replace (Z.log2 n + 1 - 1)%Z with (Z.log2 n) by lia.
  rewrite <- (IZR_Zpower radix2 (Z.log2 n)), <- (IZR_Zpower radix2 (Z.log2 n + 1)) by lia.
  split; [apply IZR_le|apply IZR_lt]; cbn [radix_val radix2]; [exact H1|]. replace (Z.log2 n + 1)%Z with (Z.succ (Z.log2 n)) by lia. exact H2.
Qed.

Lemma round32_big n : (2 ^ 24 < n)%Z ->
  round32 (IZR n) = IZR (let e := (2 ^ (Z.log2 n - 23))%Z in
     ((if ((e <? 2 * (n mod e)) || ((2 * (n mod e) =? e) && Z.odd (n / e)))%Z%bool then n / e + 1 else n / e) * e)%Z).
Proof.
  intros Hn. assert (H0 : (0 < n)%Z) by lia. assert (Hl : (24 <= Z.log2 n)%Z) by (apply Z.log2_le_pow2; lia).
  set (k := (Z.log2 n - 23)%Z). assert (Hk : (1 <= k)%Z) by lia. set (e := (2 ^ k)%Z). cbv zeta.
  assert (He : (0 < e)%Z) by (apply Z.pow_pos_nonneg; lia).
  assert (Heven : (e = 2 * 2 ^ (k - 1))%Z). { unfold e. replace k with (Z.succ (k - 1)) at 1 by lia. rewrite Z.pow_succ_r by lia. reflexivity. }
  assert (Hc : cexp radix2 fexp32 (IZR n) = k).
  { unfold cexp. rewrite (mag_log2 n H0). unfold SpecFloat.fexp, SpecFloat.emin. lia. }
  unfold round, scaled_mantissa. rewrite Hc. unfold F2R. cbn [Fnum Fexp].
  assert (Hb : bpow radix2 k = IZR e). { rewrite <- IZR_Zpower by lia. reflexivity. }
  rewrite bpow_opp, Hb, mult_IZR. f_equal. f_equal. cbn [round_mode].
  change (IZR n * / IZR e) with (IZR n / IZR e). unfold ZnearestE, Znearest.
  assert (He' : IZR e <> 0) by (apply IZR_neq; lia).
  rewrite Zfloor_div by lia. set (q := (n / e)%Z). set (r := (n mod e)%Z).
  assert (Hd : n = (e * q + r)%Z) by apply (Z_div_mod_eq_full n e). pose proof (Z.mod_pos_bound n e He) as Hr. fold r in Hr.
  assert (Hx : IZR n / IZR e - IZR q = IZR r / IZR e). { rewrite Hd, plus_IZR, mult_IZR. field. exact He'. }
  rewrite Hx.
  assert (Hpos : 0 < IZR e) by (apply IZR_lt; lia).
  assert (Hceil : (r <> 0)%Z -> Zceil (IZR n / IZR e) = (q + 1)%Z).
  { intros Hr0. rewrite Zceil_floor_neq; [|rewrite Zfloor_div by lia; fold q].
    - rewrite Zfloor_div by lia. reflexivity.
    - intros E. apply Hr0. assert (IZR r / IZR e = 0) by lra. apply eq_IZR. apply Rmult_eq_reg_r with (/ IZR e); [|apply Rinv_neq_0_compat; exact He'].
      rewrite Rmult_0_l. exact H. }
  destruct (Rcompare_spec (IZR r / IZR e) (/ 2)) as [Hlt|Heq|Hgt].
  - assert (H2 : (2 * r < e)%Z). { apply lt_IZR. rewrite mult_IZR. apply Rmult_lt_reg_r with (/ IZR e); [apply Rinv_0_lt_compat; exact Hpos|].
      rewrite Rinv_r by exact He'. unfold Rdiv in Hlt. lra. }
    destruct (e <? 2 * r)%Z eqn:E1; [lia|]. destruct (2 * r =? e)%Z eqn:E2; [lia|]. reflexivity.
  - assert (H2 : (2 * r = e)%Z). { apply eq_IZR. rewrite mult_IZR. apply Rmult_eq_reg_r with (/ IZR e); [|apply Rinv_neq_0_compat; exact He'].
      rewrite Rinv_r by exact He'. unfold Rdiv in Heq. lra. }
    destruct (e <? 2 * r)%Z eqn:E1; [lia|]. destruct (2 * r =? e)%Z eqn:E2; [|lia]. cbn [orb andb].
    rewrite <- Z.negb_even. destruct (Z.even q); cbn [negb]; [reflexivity|]. apply Hceil. lia.
  - assert (H2 : (e < 2 * r)%Z). { apply lt_IZR. rewrite mult_IZR. apply Rmult_lt_reg_r with (/ IZR e); [apply Rinv_0_lt_compat; exact Hpos|].
      rewrite Rinv_r by exact He'. unfold Rdiv in Hgt. lra. }
    destruct (e <? 2 * r)%Z eqn:E1; [|lia]. cbn [orb]. apply Hceil. lia.
Qed.

Lemma round32_Z n : round32 (IZR n) = IZR (f32Z n).
Proof.
  unfold f32Z. destruct (Z.abs n <=? 2 ^ 24)%Z eqn:Hs.
  - apply round_generic; [apply valid_rnd_round_mode|]. apply generic_format_FLT.
    assert (Ha : (Z.abs n < 2 ^ 24)%Z \/ (n = 2 ^ 24)%Z \/ (n = - 2 ^ 24)%Z) by lia. destruct Ha as [Ha|[-> | ->]].
    + exists (Float radix2 n 0); [unfold F2R; cbn; ring|exact Ha|cbn; lia].
    + exists (Float radix2 (2 ^ 23) 1); [unfold F2R; cbn [Fnum Fexp]; rewrite <- (IZR_Zpower radix2 1) by lia; rewrite <- mult_IZR; reflexivity|cbn; lia|cbn; lia].
    + exists (Float radix2 (- 2 ^ 23) 1); [unfold F2R; cbn [Fnum Fexp]; rewrite <- (IZR_Zpower radix2 1) by lia; rewrite <- mult_IZR; reflexivity|cbn; lia|cbn; lia].
  - destruct (Z.lt_trichotomy n 0) as [Hn|[->|Hn]]; [|discriminate|].
    + replace n with (- (- n))%Z at 1 by lia. rewrite opp_IZR. cbn [round_mode]. rewrite round_NE_opp.
      pose proof (round32_big (- n)) as G. cbn [round_mode] in G. rewrite G by lia. rewrite <- opp_IZR. f_equal.
      rewrite Z.abs_neq by lia. rewrite (Z.sgn_neg n Hn). cbv zeta. lia.
    + rewrite round32_big by lia. f_equal. rewrite Z.abs_eq by lia. rewrite (Z.sgn_pos n Hn). cbv zeta. lia.
Qed.

Lemma counts_binary32 n : (Z.abs (f32Z n) < 2 ^ 128)%Z ->
  is_finite (b32_of n 0) = true /\ B2R (b32_of n 0) = IZR (f32Z n).
Proof.
  intros H. unfold b32_of. pose proof (binary_normalize_correct 24 128 prec32 emax32 mode_NE n 0 false) as G.
  assert (E : F2R (Float radix2 n 0) = IZR n) by (unfold F2R; cbn; ring). cbv zeta in G. rewrite E, round32_Z in G.
  rewrite Rlt_bool_true in G.
  - destruct G as (G1 & G2 & _). split; assumption.
  - rewrite <- abs_IZR. rewrite <- (IZR_Zpower radix2 128) by lia. apply IZR_lt. exact H.
Qed.
