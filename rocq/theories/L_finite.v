(** * Scores in IEEE arithmetic are finite positive numbers *)
From Coq Require Import Reals Lra.
From Flocq Require Import Core.Core IEEE754.BinarySingleNaN.
From Verif Require Import Arith L_lexicon L_setops L_baseindex L_textsys L_search S_score S_setops L_okasearch L_textindex S_textindex IEEE L_ieee L_interval S_text SMap Ord.
Open Scope R_scope.

Local Notation fexp := (SpecFloat.fexp 53 1024).
Local Notation rnd := (round radix2 fexp ZnearestE).
Local Notation one := (b64_of 1 0).
Local Notation two_to := (bpow radix2).

Lemma ln_upper x : 0 < x -> ln x <= x - 1.
Proof. intros H. destruct (Req_dec (ln x) 0) as [E|E]; [rewrite E; assert (x = 1) by (rewrite <- (exp_ln x H), E, exp_0; reflexivity); lra|].
  pose proof (exp_ineq1 (ln x) E) as G. rewrite exp_ln in G by exact H. lra. Qed.
Lemma ln_lower x : 0 < x -> 1 - / x <= ln x.
Proof. intros H. pose proof (ln_upper (/ x) (Rinv_0_lt_compat _ H)) as G. rewrite ln_Rinv in G by exact H. lra. Qed.
Lemma ln_two_to n : (0 <= n)%Z -> ln (two_to n) = IZR n * ln 2.
Proof.
  intros Hn. pattern n. apply natlike_ind; [| |exact Hn].
  - cbn [bpow]. rewrite ln_1. ring.
  - intros m Hm IH. unfold Z.succ. rewrite bpow_plus, ln_mult, IH, plus_IZR by apply bpow_gt_0. change (two_to 1) with 2. ring.
Qed.
Lemma ln_mono x y : 0 < x -> x <= y -> ln x <= ln y.
Proof. intros H [L|E]; [left; apply ln_increasing; assumption|rewrite E; right; reflexivity]. Qed.
Lemma ln2_le1 : ln 2 <= 1.
Proof. pose proof (ln_upper 2). lra. Qed.

(** A correctly rounded logarithm is right within a factor of two. *)
Lemma rounded_rough lnf : rounded_ln lnf -> rough_ln lnf.
Proof.
  intros H x Fx Hx. destruct (H x Fx Hx) as [F1 E1]. split; [exact F1|]. rewrite E1. clear E1 F1 H. set (r := ln (B2R x)).
  destruct Hx as [Hx|Hx].
  - assert (Hb : 1 + two_to (-52) <= B2R x).
    { assert (S : succ radix2 fexp 1 = 1 + two_to (-52)).
      { rewrite succ_eq_pos by lra. f_equal. change 1 with (two_to 0). rewrite ulp_bpow. reflexivity. }
      rewrite <- S. apply succ_le_lt; [apply (fexp_correct 53 1024 prec64)|exact format_1|apply format_B2R|exact Hx]. }
    assert (Hr : two_to (-53) <= r).
    { apply Rle_trans with (ln (1 + two_to (-52))).
      - set (u := two_to (-52)) in *. assert (Hu : 0 < u) by apply bpow_gt_0. assert (u <= 1) by (apply (bpow_le radix2 (-52) 0); lia).
        apply Rle_trans with (1 - / (1 + u)); [|apply ln_lower; lra].
        replace (1 - / (1 + u)) with (u / (1 + u)) by (field; lra). replace (two_to (-53)) with (u / 2).
        + apply Rmult_le_compat_l; [lra|]. apply Rinv_le; lra.
        + unfold u. change (-52)%Z with (-53 + 1)%Z. rewrite bpow_plus. change (two_to 1) with 2. field.
      - apply ln_mono; [|exact Hb]. pose proof (bpow_gt_0 radix2 (-52)). lra. }
    assert (Hr1 : r < two_to 1024).
    { unfold r. pose proof (ln_upper (B2R x)). pose proof (abs_B2R_lt_emax 53 1024 x) as G. apply Rabs_def2 in G. lra. }
    assert (H0 : 0 < r) by (pose proof (bpow_gt_0 radix2 (-53)); lra).
    destruct (mag radix2 r) as [e He]. specialize (He ltac:(lra)). rewrite (Rabs_pos_eq r) in He by lra.
    assert (Le : (-53 < e)%Z) by (apply (lt_bpow radix2); lra).
    assert (Ue : (e - 1 < 1024)%Z) by (apply (lt_bpow radix2); lra).
    assert (Hp : forall k, (-53 <= k <= 1024)%Z -> generic_format radix2 fexp (two_to k)).
    { intros k Hk. apply generic_format_bpow. unfold SpecFloat.fexp, SpecFloat.emin. lia. }
    assert (E2 : two_to e = 2 * two_to (e - 1)).
    { replace e with (e - 1 + 1)%Z at 1 by lia. rewrite bpow_plus. change (two_to 1) with 2. ring. }
    split.
    + apply Rle_trans with (two_to (e - 1)); [lra|]. apply round_ge_generic; [apply (fexp_correct 53 1024 prec64)|apply valid_rnd_N|apply Hp; lia|lra].
    + apply Rle_trans with (two_to e); [|lra]. apply round_le_generic; [apply (fexp_correct 53 1024 prec64)|apply valid_rnd_N|apply Hp; lia|lra].
  - assert (E : r = 0) by (unfold r; rewrite <- Hx; apply ln_1). rewrite E, round_0 by apply valid_rnd_N. lra.
Qed.

(** ** Weights and scores of single words *)
Section Scores.
  Variable lnf : b64 -> b64.
  Hypothesis Hln : rough_ln lnf.
  Local Instance AFs : Arith b64 := Arith_b64 lnf.
  Ltac simp := first [apply simple_pow; lia | apply simple_mul; lia | apply simple_Z; lia].
  Ltac bnd := first [apply simple_bound; simp | apply B2R_bound].
  Lemma IZR_pow n : (0 <= n)%Z -> IZR (2 ^ n) = two_to n.
  Proof. intros H. rewrite <- IZR_Zpower by exact H. reflexivity. Qed.
  Lemma one_in : within 1 1 one.
  Proof. split; [exact one_finite|]. rewrite B2R_one. lra. Qed.
  Lemma pow_pos k : 0 < two_to k.
  Proof. apply bpow_gt_0. Qed.

  Lemma ln_in k x : (0 <= k <= 80)%Z -> within 1 (two_to k) x -> within 0 (2 * IZR k) (lnf x).
  Proof.
    intros Hk [Fx Hx]. destruct (Hln x Fx ltac:(lra)) as [F1 H1]. split; [exact F1|].
    assert (0 <= ln (B2R x)) by (rewrite <- ln_1; apply ln_mono; lra).
    assert (ln (B2R x) <= IZR k).
    { apply Rle_trans with (ln (two_to k)); [apply ln_mono; lra|]. rewrite ln_two_to by lia. pose proof ln2_le1.
      assert (0 <= IZR k) by (apply IZR_le; lia). rewrite <- (Rmult_1_r (IZR k)) at 2. apply Rmult_le_compat_l; lra. }
    lra.
  Qed.
  Lemma idf_in N n : (1 <= n <= N)%Z -> (N <= 2 ^ 64)%Z ->
    within (two_to (-2)) (two_to 8) (fln (fadd f1 (fdiv (fofZ N) (fofZ n)))).
  Proof.
    intros Hn HN. cbn [fln fadd f1 fdiv fofZ AFs Arith_b64].
    assert (U : forall m, (1 <= m <= 2 ^ 64)%Z -> within 1 (two_to 64) (b64_ofZ m)).
    { intros m Hm. apply ofZ_in; [lia|change 1 with (two_to 0); bnd|bnd|]. rewrite <- IZR_pow by lia. split; apply IZR_le; lia. }
    destruct (U N ltac:(lia)) as [FN GN]. destruct (U n ltac:(lia)) as [Fn Gn].
    assert (L : B2R (b64_ofZ n) <= B2R (b64_ofZ N)).
    { unfold b64_ofZ in *. destruct (of_R n 0) as [A1 A2].
      - replace (F2R (Float radix2 n 0)) with (IZR n) by (unfold F2R; cbn; ring).
        apply (rnd_in 1 (two_to 64)); [change 1 with (two_to 0); bnd|bnd|]. rewrite <- IZR_pow by lia. split; apply IZR_le; lia.
      - destruct (of_R N 0) as [B1 B2].
        + replace (F2R (Float radix2 N 0)) with (IZR N) by (unfold F2R; cbn; ring).
          apply (rnd_in 1 (two_to 64)); [change 1 with (two_to 0); bnd|bnd|]. rewrite <- IZR_pow by lia. split; apply IZR_le; lia.
        + destruct (b64_of n 0) eqn:E1; try discriminate; destruct (b64_of N 0) eqn:E2; try discriminate; rewrite A2, B2;
            (apply round_le; [apply (fexp_correct 53 1024 prec64)|apply valid_rnd_N|]); unfold F2R; cbn [Fnum Fexp bpow]; rewrite !Rmult_1_r; apply IZR_le; lia. }
    assert (D : within 1 (two_to 64) (Bdiv mode_NE (b64_ofZ N) (b64_ofZ n))).
    { apply div_in; [exact FN|lra|change 1 with (two_to 0); bnd|bnd|]. split.
      - apply Rmult_le_reg_r with (B2R (b64_ofZ n)); [lra|]. unfold Rdiv. rewrite Rmult_assoc, Rinv_l by lra. lra.
      - apply Rle_trans with (B2R (b64_ofZ N) / 1); [|lra]. apply Rmult_le_compat_l; [lra|]. apply Rinv_le; lra. }
    assert (A : within 2 (two_to 65) (Bplus mode_NE one (Bdiv mode_NE (b64_ofZ N) (b64_ofZ n)))).
    { destruct D as [FD GD]. apply add_in; [exact one_finite|exact FD|change 2 with (two_to 1); bnd|bnd|]. rewrite B2R_one.
      change (two_to 65) with (two_to (1 + 64)). rewrite bpow_plus. change (two_to 1) with 2. pose proof (bpow_le radix2 0 64 ltac:(lia)) as G. cbn [bpow] in G. lra. }
    assert (A1 : within 1 (two_to 65) (Bplus mode_NE one (Bdiv mode_NE (b64_ofZ N) (b64_ofZ n)))) by (apply (within_weaken _ _ _ _ _ A); lra).
    destruct (ln_in 65 _ ltac:(lia) A1) as [F1 G1]. split; [exact F1|].
    destruct A as [FA GA]. destruct (Hln _ FA ltac:(lra)) as [_ H1]. pose proof (ln_mono 2 _ ltac:(lra) (proj1 GA)) as G. pose proof ln_lt_2.
    change (two_to (-2)) with (/ 4). change (two_to 8) with 256. lra.
  Qed.

  (** *** Okapi *)
  Lemma by_leb (a b x : b64) : is_finite a = true -> is_finite b = true -> is_finite x = true -> Bleb a x = true -> Bleb x b = true -> within (B2R a) (B2R b) x.
  Proof.
    intros Fa Fb Fx H1 H2. rewrite Bleb_correct in H1, H2 by assumption. split; [exact Fx|]. split.
    - destruct (Rle_bool_spec (B2R a) (B2R x)); [assumption|discriminate].
    - destruct (Rle_bool_spec (B2R x) (B2R b)); [assumption|discriminate].
  Qed.
  Lemma pow_val k : (-149 <= k <= 90)%Z -> is_finite (b64_of 1 k) = true /\ B2R (b64_of 1 k) = two_to k.
  Proof.
    intros H. assert (E : F2R (Float radix2 1 k) = two_to k) by (unfold F2R; cbn [Fnum Fexp]; ring).
    assert (R : rnd (two_to k) = two_to k) by (apply round_generic; [apply valid_rnd_N|apply simple_format, simple_pow, H]).
    destruct (of_R 1 k) as [F1 V].
    - rewrite E, R. apply simple_bound, simple_pow, H.
    - split; [exact F1|]. rewrite V, E. exact R.
  Qed.
  Lemma by_pow j k x : (-149 <= j <= 90)%Z -> (-149 <= k <= 90)%Z -> is_finite x = true -> Bleb (b64_of 1 j) x = true -> Bleb x (b64_of 1 k) = true ->
    within (two_to j) (two_to k) x.
  Proof. intros Hj Hk Fx H1 H2. destruct (pow_val j Hj) as [Fj <-]. destruct (pow_val k Hk) as [Fk <-]. apply by_leb; assumption. Qed.
  Lemma K1_in : within (two_to 0) (two_to 1) K1_b64.
  Proof. apply by_pow; try lia; vm_compute; reflexivity. Qed.
  Lemma K1_plus1_in : within (two_to 1) (two_to 2) (fadd K1_b64 f1).
  Proof. apply by_pow; try lia; vm_compute; reflexivity. Qed.
  Lemma K1_plus1_in' : within (two_to 1) (two_to 2) (fadd f1 K1_b64).
  Proof. apply by_pow; try lia; vm_compute; reflexivity. Qed.
  Lemma B_in : within (two_to (-1)) (two_to 0) B_b64.
  Proof. apply by_pow; try lia; vm_compute; reflexivity. Qed.
  Lemma B_from1_in : within (two_to (-2)) (two_to 0) (fsub f1 B_b64).
  Proof. apply by_pow; try lia; vm_compute; reflexivity. Qed.

  Lemma prod_le a b x y : 0 <= a <= x -> 0 <= b <= y -> a * b <= x * y.
  Proof. intros [? ?] [? ?]. apply Rmult_le_compat; assumption. Qed.
  Lemma count_in n : (1 <= n <= 2 ^ 24)%Z -> within (two_to 0) (two_to 24) (fofZ n).
  Proof. intros H. apply ofZ_in; [lia|bnd|bnd|]. rewrite <- (IZR_pow 24) by lia. split; apply IZR_le; lia. Qed.
  (** the positive operations, between powers of two *)
  Lemma mul_pows a b c d x y : within (two_to a) (two_to b) x -> within (two_to c) (two_to d) y ->
    (-149 <= a + c <= 90)%Z -> (-149 <= b + d <= 90)%Z -> within (two_to (a + c)) (two_to (b + d)) (fmul x y).
  Proof.
    intros [Fx Gx] [Fy Gy] H1 H2. apply mul_in; [exact Fx|exact Fy|bnd|bnd|]. rewrite !bpow_plus.
    pose proof (pow_pos a). pose proof (pow_pos b). pose proof (pow_pos c). pose proof (pow_pos d). split; apply prod_le; lra.
  Qed.
  Lemma div_pows a b c d x y : within (two_to a) (two_to b) x -> within (two_to c) (two_to d) y ->
    (-149 <= a - d <= 90)%Z -> (-149 <= b - c <= 90)%Z -> within (two_to (a - d)) (two_to (b - c)) (fdiv x y).
  Proof.
    intros [Fx Gx] [Fy Gy] H1 H2. pose proof (pow_pos a). pose proof (pow_pos b). pose proof (pow_pos c). pose proof (pow_pos d).
    apply div_in; [exact Fx|lra|bnd|bnd|]. unfold Rdiv. unfold Z.sub. rewrite !bpow_plus, !bpow_opp.
    assert (/ two_to d <= / B2R y) by (apply Rinv_le; lra). assert (/ B2R y <= / two_to c) by (apply Rinv_le; lra).
    assert (0 < / two_to d) by (apply Rinv_0_lt_compat; lra). assert (0 < / B2R y) by (apply Rinv_0_lt_compat; lra). split; apply prod_le; lra.
  Qed.
  Lemma add_pows a b c d x y : within (two_to a) (two_to b) x -> within (two_to c) (two_to d) y ->
    (-149 <= a <= 90)%Z -> (-149 <= b + 1 <= 90)%Z -> (d <= b)%Z -> within (two_to a) (two_to (b + 1)) (fadd x y).
  Proof.
    intros [Fx Gx] [Fy Gy] H1 H2 H3. pose proof (pow_pos c). pose proof (bpow_le radix2 d b H3).
    apply add_in; [exact Fx|exact Fy|bnd|bnd|]. rewrite bpow_plus. change (two_to 1) with 2. lra.
  Qed.

  Lemma tf_in T N len f : (1 <= T)%Z -> (1 <= N <= 2 ^ 64)%Z -> (1 <= len <= 2 ^ 24)%Z -> (1 <= f <= 2 ^ 24)%Z ->
    within (two_to (-91)) (two_to 2) (bm25_tf K1_b64 B_b64 (fdiv (fofZ T) (fofZ N)) len f).
  Proof.
    intros HT HN Hl Hf. unfold bm25_tf.
    assert (Mean : is_finite (fdiv (fofZ T) (fofZ N)) = true /\ two_to (-64) <= B2R (fdiv (fofZ T) (fofZ N))).
    { destruct (ofZ_fin 1 T) as [FT GT]; auto.
      assert (UN : within 1 (two_to 64) (b64_ofZ N)).
      { apply ofZ_in; [lia|change 1 with (two_to 0); bnd|bnd|]. rewrite <- IZR_pow by lia. split; apply IZR_le; lia. }
      destruct UN as [FN GN].
      assert (W : within (two_to (-64)) (B2R (b64_ofZ T)) (fdiv (fofZ T) (fofZ N))); [|destruct W as [W1 W2]; exact (conj W1 (proj1 W2))].
      change (fdiv (fofZ T) (fofZ N)) with (Bdiv mode_NE (b64_ofZ T) (b64_ofZ N)).
      apply div_in; [exact FT|lra|bnd|bnd|]. split.
      - change (-64)%Z with (- (64))%Z. rewrite bpow_opp. change (IZR 1) with 1 in GT.
        apply Rle_trans with (1 * / B2R (b64_ofZ N)); [rewrite Rmult_1_l; apply Rinv_le; lra|].
        apply Rmult_le_compat_r; [|exact GT]. left. apply Rinv_0_lt_compat. lra.
      - apply Rle_trans with (B2R (b64_ofZ T) / 1); [|lra]. change (IZR 1) with 1 in GT. apply Rmult_le_compat_l; [lra|]. apply Rinv_le; lra. }
    set (mean := fdiv (fofZ T) (fofZ N)) in *. destruct Mean as [FM GM].
    pose proof (mul_pows _ _ _ _ _ _ B_in (count_in len Hl) ltac:(lia) ltac:(lia)) as HB.
    assert (Q : within 0 (two_to 88) (fdiv (fmul B_b64 (fofZ len)) mean)).
    { destruct HB as [F1 G1]. pose proof (pow_pos (-1 + 0)). pose proof (pow_pos (-64)). apply div_in; [exact F1|lra|apply simple_bound, (simple_Z 0); lia|bnd|].
      assert (0 < / B2R mean) by (apply Rinv_0_lt_compat; lra). split.
      - apply Rmult_le_pos; lra.
      - change (two_to 88) with (two_to (0 + 24 - (-64))). unfold Z.sub. rewrite (bpow_plus radix2 (0 + 24)), bpow_opp.
        apply prod_le; [lra|]. split; [lra|]. apply Rinv_le; lra. }
    assert (LW : within (two_to (-2)) (two_to 89) (fadd (fsub f1 B_b64) (fdiv (fmul B_b64 (fofZ len)) mean))).
    { destruct B_from1_in as [F1 G1]. destruct Q as [F2 G2]. apply add_in; [exact F1|exact F2|bnd|bnd|].
      change (two_to 89) with (two_to (1 + 88)). rewrite bpow_plus. change (two_to 1) with 2.
      pose proof (bpow_le radix2 0 88 ltac:(lia)). lra. }
    pose proof (mul_pows _ _ _ _ _ _ K1_in LW ltac:(lia) ltac:(lia)) as HK.
    pose proof (count_in f Hf) as Cf.
    assert (Den : within (B2R (@fofZ b64 _ f)) (two_to 91) (fadd (fofZ f) (fmul K1_b64 (fadd (fsub f1 B_b64) (fdiv (fmul B_b64 (fofZ len)) mean))))).
    { destruct Cf as [F1 G1]. destruct HK as [F2 G2]. pose proof (pow_pos (0 + -2)). apply add_in; [exact F1|exact F2|bnd| |].
      - split; [apply generic_format_bpow; unfold SpecFloat.fexp, SpecFloat.emin; lia|]. rewrite Rabs_pos_eq by apply bpow_ge_0. apply bpow_lt. lia.
      - split; [lra|]. change (two_to (1 + 89)) with (two_to 90) in G2. change (two_to 91) with (two_to (1 + 90)). rewrite bpow_plus. change (two_to 1) with 2.
        pose proof (bpow_le radix2 24 90 ltac:(lia)). lra. }
    assert (Num : within (B2R (@fofZ b64 _ f)) (4 * B2R (@fofZ b64 _ f)) (fmul (fofZ f) (fadd K1_b64 f1))).
    { destruct Cf as [F1 G1]. destruct K1_plus1_in as [F2 G2]. change (two_to 0) with 1 in G1. change (two_to 1) with 2 in G2. change (two_to 2) with 4 in G2.
      apply mul_in; [exact F1|exact F2|bnd| |].
      - assert (E : B2R (@fofZ b64 _ f) = IZR f).
        { cbn [fofZ AFs Arith_b64]. destruct (ofZ_in (IZR f) (IZR f) f) as [_ G]; [lia|bnd|bnd|lra|lra]. }
        rewrite E. change 4 with (two_to 2). rewrite Rmult_comm. bnd.
      - split.
        + rewrite <- (Rmult_1_r (B2R (@fofZ b64 _ f))) at 1. apply prod_le; lra.
        + rewrite (Rmult_comm 4). apply prod_le; lra. }
    destruct Den as [FD GD]. destruct Num as [FN' GN']. destruct Cf as [F1 G1]. change (two_to 0) with 1 in G1.
    pose proof (pow_pos 91). apply div_in; [exact FN'|lra|bnd|bnd|]. assert (0 < / B2R (@fadd b64 _ (fofZ f) (fmul K1_b64 (fadd (fsub f1 B_b64) (fdiv (fmul B_b64 (fofZ len)) mean))))) by (apply Rinv_0_lt_compat; lra).
    split.
    - change (-91)%Z with (- (91))%Z. rewrite bpow_opp. rewrite <- (Rmult_1_l (/ two_to 91)). apply prod_le.
      + lra.
      + split; [left; apply Rinv_0_lt_compat; lra|]. apply Rinv_le; lra.
    - change (two_to 2) with 4. apply Rle_trans with (4 * B2R (@fofZ b64 _ f) * / B2R (@fofZ b64 _ f)).
      + apply prod_le; [lra|]. split; [lra|]. apply Rinv_le; lra.
      + rewrite Rmult_assoc, Rinv_r by lra. lra.
  Qed.

  (** *** Sums *)
  Lemma sum_in lo k (l : list b64) : (-149 <= k <= 66)%Z -> 0 <= lo -> bound64 lo ->
    (forall x, In x l -> within lo (two_to k) x) -> forall c a,
    (0 <= c)%Z -> within 0 (IZR c * two_to k) a -> (c + Zlen l <= 2 ^ 24)%Z ->
    within 0 (IZR (c + Zlen l) * two_to k) (fold_left fadd l a) /\ (l <> [] \/ lo <= B2R a -> lo <= B2R (fold_left fadd l a : b64)).
  Proof.
    intros Hk H0 Hlo. induction l as [|x l IH]; intros Hl c a Hc Ha Hs.
    - cbn [fold_left]. rewrite Z.add_0_r. split; [exact Ha|]. intros [H|H]; [congruence|exact H].
    - cbn [fold_left]. destruct (Hl x (or_introl eq_refl)) as [Fx Gx]. destruct Ha as [Fa Ga].
      replace (c + Zlen (x :: l))%Z with ((c + 1) + Zlen l)%Z in * by (unfold Zlen; cbn [length]; lia).
      assert (Hp : (0 <= Zlen l)%Z) by (unfold Zlen; lia).
      assert (A : within lo (IZR (c + 1) * two_to k) (fadd a x)).
      { apply add_in; [exact Fa|exact Fx|exact Hlo|bnd|]. rewrite plus_IZR, Rmult_plus_distr_r. lra. }
      destruct (IH (fun y Hy => Hl y (or_intror Hy)) (c + 1)%Z (fadd a x)) as [A1 A2]; [lia| |lia|].
      + destruct A as [A1 A2]. split; [exact A1|lra].
      + split; [exact A1|]. intros _. apply A2. right. exact (proj1 (proj2 A)).
  Qed.
  Lemma zero_in k : within 0 (IZR 0 * two_to k) f0.
  Proof. split; [reflexivity|]. cbn. lra. Qed.
  Lemma lsum_in j k (l : list b64) : (-149 <= j <= 66)%Z -> (-149 <= k <= 66)%Z -> l <> [] ->
    (forall x, In x l -> within (two_to j) (two_to k) x) -> (Zlen l <= 2 ^ 24)%Z -> within (two_to j) (two_to (k + 24)) (lsum l).
  Proof.
    intros Hj Hk Hne Hl Hs. unfold lsum. destruct (sum_in (two_to j) k l) with (c := 0%Z) (a := f0 : b64) as [[A1 A2] A3]; [lia|apply bpow_ge_0|bnd|exact Hl|lia|apply zero_in|lia|].
    split; [exact A1|]. split; [apply A3; left; exact Hne|]. apply Rle_trans with (1 := proj2 A2).
    rewrite Z.add_0_l, bpow_plus, Rmult_comm. apply Rmult_le_compat_l; [apply bpow_ge_0|]. rewrite <- IZR_pow by lia. apply IZR_le. exact Hs.
  Qed.
  Lemma sqrt_pows a b x : (-100 <= a + a <= 90)%Z -> (-100 <= b + b <= 90)%Z -> within (two_to (a + a)) (two_to (b + b)) x ->
    within (two_to a) (two_to b) (fsqrt x).
  Proof.
    intros Ha Hb [Fx Gx]. pose proof (pow_pos (a + a)) as H. rewrite bpow_plus in H. rewrite !bpow_plus in Gx. pose proof (bpow_ge_0 radix2 a). pose proof (bpow_ge_0 radix2 b).
    apply sqrt_in; [exact Fx|lra|bnd|bnd|]. split.
    - rewrite <- (sqrt_square (two_to a)) by assumption. apply sqrt_le_1_alt. lra.
    - rewrite <- (sqrt_square (two_to b)) by assumption. apply sqrt_le_1_alt. lra.
  Qed.

  (** *** Cosine *)
  Lemma term_weight_in w ws : In w ws -> (Zlen ws <= 2 ^ 24)%Z -> within (two_to 0) (two_to 6) (term_weight w ws).
  Proof.
    intros Hw Hl. unfold term_weight. change (fln (fofZ (occurrences w ws))) with (lnf (fofZ (occurrences w ws))). pose proof (occurrences_pos w ws Hw). pose proof (occurrences_le w ws).
    destruct (ln_in 24 (fofZ (occurrences w ws)) ltac:(lia)) as [F1 G1]; [apply (count_in (occurrences w ws)); lia|].
    apply add_in; [exact one_finite|exact F1|bnd|bnd|]. change (B2R f1) with (B2R one). rewrite B2R_one. change (two_to 0) with 1. change (two_to 6) with 64. lra.
  Qed.
  Lemma doc_norm_in w ws : In w ws -> (Zlen ws <= 2 ^ 24)%Z -> within (two_to 0) (two_to 18) (doc_norm ws).
  Proof.
    intros Hw Hl. unfold doc_norm. apply (sqrt_pows 0 18); [lia|lia|]. destruct (distinct_spec ws) as [Hn Hd]. apply (lsum_in 0 12); [lia|lia| | |].
    - apply (proj2 (Hd w)) in Hw. destruct (distinct ws); [destruct Hw|discriminate].
    - intros x Hx. apply in_map_iff in Hx as (u & <- & Hu). apply Hd in Hu. apply (mul_pows 0 6 0 6); try lia; apply term_weight_in; assumption.
    - unfold Zlen in *. rewrite map_length. assert (length (distinct ws) <= length ws)%nat; [|lia]. apply NoDup_incl_length; [exact Hn|]. intros u. apply Hd.
  Qed.
  Lemma cosine_weight_in w ws : In w ws -> (Zlen ws <= 2 ^ 24)%Z -> within (two_to (-18)) (two_to 6) (f32 (cosine_weight w ws)).
  Proof.
    intros Hw Hl. apply store_in; [|simp|simp]. apply (div_pows 0 6 0 18); try lia; [apply term_weight_in|apply (doc_norm_in w)]; assumption.
  Qed.
  Lemma idf_word_in D w : In w (vocabulary D) -> (Zsize D <= 2 ^ 64)%Z -> within (two_to (-2)) (two_to 8) (idf D w).
  Proof.
    intros Hw HN. apply idf_in; [|exact HN]. split; [apply doc_freq_pos, Hw|]. unfold doc_freq, Zlen, Zsize, size. rewrite <- (map_length snd (elts D)).
    fold (vals D). pose proof (filter_len (fun ws => contains ws w) (vals D)). lia.
  Qed.

  (** *** The weight of a query *)
  Lemma norm_pows a b x : (-149 <= a <= 0)%Z -> (0 <= b <= 90)%Z -> within (two_to a) (two_to b) x -> within (two_to a) (two_to b) (norm x).
  Proof.
    intros Ha Hb Hx. unfold norm. assert (G : forall y : b64, within (two_to a) (two_to b) y -> within (two_to a) (two_to b) (fmul y f1)).
    { intros y Hy. pose proof (mul_pows a b 0 0 y f1 Hy) as G. rewrite !Z.add_0_r in G. apply G; [exact one_in|lia|lia]. }
    apply G. destruct (feqb x f0); [|exact Hx]. apply (within_weaken _ _ _ _ _ one_in); [apply (bpow_le radix2 a 0); lia|apply (bpow_le radix2 0 b); lia].
  Qed.
  Lemma norm_zero a b : (-149 <= a <= 0)%Z -> (0 <= b <= 90)%Z -> within (two_to a) (two_to b) (norm f0).
  Proof.
    intros Ha Hb. assert (G : within (two_to 0) (two_to 0) (norm f0)) by (apply by_pow; try lia; vm_compute; reflexivity).
    apply (within_weaken _ _ _ _ _ G); apply bpow_le; lia.
  Qed.
  Lemma okapi_norm_in D q : (Zsize D <= 2 ^ 64)%Z -> (Zlen q <= 2 ^ 24)%Z -> within (two_to (-2)) (two_to 34) (norm (okapi_weight K1_b64 D q)).
  Proof.
    intros HN Hq. unfold okapi_weight. destruct (filter (contains (vocabulary D)) q) as [|w0 l] eqn:E; [exact (norm_zero (-2) 34 ltac:(lia) ltac:(lia))|].
    apply norm_pows; [lia|lia|]. rewrite <- E. apply (lsum_in (-2) 10); [lia|lia|rewrite E; discriminate| |].
    - intros x Hx. apply in_map_iff in Hx as (w & <- & Hw). apply filter_In in Hw as [_ Hw]. apply existsb_eqb_In in Hw.
      pose proof (mul_pows _ _ _ _ _ _ (idf_word_in D w Hw HN) K1_plus1_in' ltac:(lia) ltac:(lia)) as G.
      apply (within_weaken _ _ _ _ _ G); apply bpow_le; lia.
    - unfold Zlen in *. rewrite map_length. pose proof (filter_len (contains (vocabulary D)) q). lia.
  Qed.
  Lemma cos_norm_in D q : (Zsize D <= 2 ^ 64)%Z -> (Zlen q <= 2 ^ 24)%Z -> within (two_to (-2)) (two_to 34) (norm (cos_weight D q)).
  Proof.
    intros HN Hq. unfold cos_weight. destruct (filter (contains (vocabulary D)) q) as [|w0 l] eqn:E; [exact (norm_zero (-2) 34 ltac:(lia) ltac:(lia))|].
    assert (G : within (two_to (-2)) (two_to 20) (norm (cos_weight D q))).
    { unfold cos_weight. apply norm_pows; [lia|lia|]. apply (sqrt_pows (-2) 20); [lia|lia|]. apply (lsum_in (-4) 16); [lia|lia|rewrite E; discriminate| |].
      - intros x Hx. apply in_map_iff in Hx as (w & <- & Hw). apply filter_In in Hw as [_ Hw]. apply existsb_eqb_In in Hw.
        exact (mul_pows _ _ _ _ _ _ (idf_word_in D w Hw HN) (idf_word_in D w Hw HN) ltac:(lia) ltac:(lia)).
      - unfold Zlen in *. rewrite map_length. pose proof (filter_len (contains (vocabulary D)) q). lia. }
    unfold cos_weight in G. rewrite E in G. apply (within_weaken _ _ _ _ _ G); [lra|apply bpow_le; lia].
  Qed.

  (** *** The bound that is kept *)
  Definition P (c : Z) (v : b64) : Prop := (0 <= c)%Z /\ ((c <= 2 ^ 24)%Z -> within (two_to (-100)) (IZR c * two_to 16) v).
  Lemma P_mono c c' v : (c <= c')%Z -> P c v -> P c' v.
  Proof.
    intros H [H1 H2]. split; [lia|]. intros H3. apply (within_weaken _ _ _ _ _ (H2 ltac:(lia))); [lra|].
    apply Rmult_le_compat_r; [apply bpow_ge_0|]. apply IZR_le. exact H.
  Qed.
  Lemma P_f32 c v : P c v -> P c (f32 v).
  Proof. intros [H1 H2]. split; [exact H1|]. intros H3. apply store_in; [exact (H2 H3)|simp|simp]. Qed.
  Lemma P_one c v : P c v -> P c (scaled v f1).
  Proof.
    intros H. unfold scaled. apply P_f32. destruct H as [H1 H2]. split; [exact H1|]. intros H3. destruct (H2 H3) as [F1 G1].
    assert (O : within (two_to 0) (two_to 0) (f32 (f1 : b64))) by (apply by_pow; try lia; vm_compute; reflexivity). destruct O as [F2 G2].
    change (two_to 0) with 1 in G2. apply mul_in; [exact F1|exact F2|bnd|bnd|]. replace (B2R (f32 (f1 : b64))) with 1 by lra. rewrite Rmult_1_r. exact G1.
  Qed.
  Lemma P_add c c' u v : P c u -> P c' v -> P (c + c') (f32 (fadd u v)).
  Proof.
    intros [H1 H2] [H1' H2']. apply P_f32. split; [lia|]. intros H3. destruct (H2 ltac:(lia)) as [F1 G1]. destruct (H2' ltac:(lia)) as [F2 G2].
    pose proof (pow_pos (-100)). apply add_in; [exact F1|exact F2|bnd|bnd|]. rewrite plus_IZR, Rmult_plus_distr_r. lra.
  Qed.
  Lemma P_single a b v : (-100 <= a)%Z -> (b <= 16)%Z -> within (two_to a) (two_to b) v -> P 1 v.
  Proof.
    intros Ha Hb H. split; [lia|]. intros _. apply (within_weaken _ _ _ _ _ H); [apply bpow_le; exact Ha|]. rewrite Rmult_1_l. apply bpow_le. exact Hb.
  Qed.
  (** dividing by the weight of the query *)
  Lemma P_final c v q : P c v -> (c <= 2 ^ 24)%Z -> within (two_to (-2)) (two_to 34) q -> within (two_to (-134)) (two_to 42) (f32 (fdiv v q)).
  Proof.
    intros [H1 H2] H3 Hq. apply store_in; [|simp|simp].
    assert (G : within (two_to (-100)) (two_to 40) v).
    { apply (within_weaken _ _ _ _ _ (H2 H3)); [lra|]. change (two_to 40) with (two_to (24 + 16)). rewrite bpow_plus. apply Rmult_le_compat_r; [apply bpow_ge_0|].
      rewrite <- (IZR_pow 24) by lia. apply IZR_le. exact H3. }
    exact (div_pows _ _ _ _ _ _ G Hq ltac:(lia) ltac:(lia)).
  Qed.
End Scores.
