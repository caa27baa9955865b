(** * Lemmas about the ricecode model *)
From Verif Require Import S_rice M_rice.
Local Ltac Zify.zify_post_hook ::= Z.div_mod_to_equations.

(** ** Bytes *)
Lemma pack_byte_testbit bits j i :
  Z.testbit (pack_byte bits j) (Z.of_nat i) =
  if (i <? 8)%nat then nth (8 * j + i) bits false else false.
Proof.
  unfold pack_byte. cbn [map].
  destruct i as [|[|[|[|[|[|[|[|i]]]]]]]];
  match goal with |- context [(?a <? 8)%nat] => let v := eval compute in (a <? 8)%nat in
    change (a <? 8)%nat with v end; cbv iota.
  1-8: generalize (nth (8 * j + 0) bits false) (nth (8 * j + 1) bits false)
    (nth (8 * j + 2) bits false) (nth (8 * j + 3) bits false) (nth (8 * j + 4) bits false)
    (nth (8 * j + 5) bits false) (nth (8 * j + 6) bits false) (nth (8 * j + 7) bits false);
    intros [] [] [] [] [] [] [] []; vm_compute; reflexivity.
  apply Z.testbit_false; [lia|].
  assert (Hb : 0 <= sumZ
     [bit (nth (8 * j + 0) bits false) * 2 ^ Z.of_nat 0;
      bit (nth (8 * j + 1) bits false) * 2 ^ Z.of_nat 1;
      bit (nth (8 * j + 2) bits false) * 2 ^ Z.of_nat 2;
      bit (nth (8 * j + 3) bits false) * 2 ^ Z.of_nat 3;
      bit (nth (8 * j + 4) bits false) * 2 ^ Z.of_nat 4;
      bit (nth (8 * j + 5) bits false) * 2 ^ Z.of_nat 5;
      bit (nth (8 * j + 6) bits false) * 2 ^ Z.of_nat 6;
      bit (nth (8 * j + 7) bits false) * 2 ^ Z.of_nat 7] < 2 ^ 8).
  { generalize (nth (8 * j + 0) bits false) (nth (8 * j + 1) bits false)
    (nth (8 * j + 2) bits false) (nth (8 * j + 3) bits false) (nth (8 * j + 4) bits false)
    (nth (8 * j + 5) bits false) (nth (8 * j + 6) bits false) (nth (8 * j + 7) bits false);
    intros [] [] [] [] [] [] [] []; vm_compute; split; (reflexivity || discriminate). }
  rewrite Z.div_small; [reflexivity|]. split; [apply Hb|].
  eapply Z.lt_le_trans; [apply Hb|]. apply Z.pow_le_mono_r; lia.
Qed.

Lemma pack_byte_nonneg bits j : 0 <= pack_byte bits j < 256.
Proof.
  unfold pack_byte. cbn [map].
  generalize (nth (8 * j + 0) bits false) (nth (8 * j + 1) bits false)
    (nth (8 * j + 2) bits false) (nth (8 * j + 3) bits false) (nth (8 * j + 4) bits false)
    (nth (8 * j + 5) bits false) (nth (8 * j + 6) bits false) (nth (8 * j + 7) bits false);
    intros [] [] [] [] [] [] [] []; vm_compute; split; (reflexivity || discriminate).
Qed.

Lemma pack_byte_ext bits bits' j :
  (forall i, (i < 8)%nat -> nth (8 * j + i) bits false = nth (8 * j + i) bits' false) ->
  pack_byte bits j = pack_byte bits' j.
Proof.
  intros H. unfold pack_byte. f_equal. apply map_ext_in. intros i Hi.
  rewrite H; [reflexivity|]. simpl in Hi. lia.
Qed.

Lemma land_pow2_testbit v i : 0 <= i -> negb (Z.land v (2 ^ i) =? 0) = Z.testbit v i.
Proof.
  intros Hi. destruct (Z.testbit v i) eqn:E.
  - destruct (Z.land v (2 ^ i) =? 0) eqn:F; [|reflexivity]. exfalso. apply Z.eqb_eq in F.
    assert (Hb : Z.testbit (Z.land v (2 ^ i)) i = true)
      by (rewrite Z.land_spec, E, Z.pow2_bits_true by exact Hi; reflexivity).
    rewrite F, Z.bits_0 in Hb. discriminate.
  - assert (F : Z.land v (2 ^ i) = 0).
    { apply Z.bits_inj'. intros n Hn. rewrite Z.land_spec, Z.bits_0.
      destruct (Z.eq_dec n i) as [-> |Hne]; [rewrite E; reflexivity|].
      rewrite Z.pow2_bits_false by lia. apply andb_false_r. }
    rewrite F. reflexivity.
Qed.

Lemma nth_error_seq n j : nth_error (seq 0 n) j = if (j <? n)%nat then Some j else None.
Proof.
  destruct (Nat.ltb_spec j n) as [H|H].
  - rewrite nth_error_nth' with (d := O) by (rewrite seq_length; exact H).
    rewrite seq_nth by exact H. reflexivity.
  - apply nth_error_None. rewrite seq_length. exact H.
Qed.

Lemma nth_error_pack bits j :
  nth_error (pack bits) j =
  if (8 * j <? length bits)%nat then Some (pack_byte bits j) else None.
Proof.
  unfold pack. rewrite nth_error_map, nth_error_seq.
  destruct (Nat.ltb_spec j ((length bits + 7) / 8)) as [H|H];
  destruct (Nat.ltb_spec (8 * j) (length bits)) as [H'|H']; try reflexivity; exfalso;
  pose proof (Nat.div_mod (length bits + 7) 8 ltac:(lia));
  pose proof (Nat.mod_upper_bound (length bits + 7) 8 ltac:(lia)); lia.
Qed.

Lemma pack_length bits : length (pack bits) = ((length bits + 7) / 8)%nat.
Proof. unfold pack. rewrite map_length, seq_length. reflexivity. Qed.

(** ** The bit array represents a list of bits *)
Definition ba_repr (b : bitarray) (bits : list bool) : Prop :=
  ba_bytes b = pack bits /\ ba_nbits b = Zlen bits /\
  ba_bitsleft b = 8 * Z.of_nat ((length bits + 7) / 8) - Zlen bits.

Lemma ba_repr_new : ba_repr ba_new [].
Proof. repeat split; reflexivity. Qed.

Lemma ba_get_repr b bits i : ba_repr b bits -> 0 <= i ->
  ba_get b i =
    if i <? 8 * Z.of_nat ((length bits + 7) / 8)
    then Ok (bit (nth (Z.to_nat i) bits false)) else Raise IndexError.
Proof.
  intros [Hb _] Hi. unfold ba_get. rewrite Hb.
  destruct (Z.ltb_spec i (8 * Z.of_nat ((length bits + 7) / 8))) as [H|H].
  - rewrite (py_get_nat _ _ (pack_byte bits (Z.to_nat (i / 8)))); [|lia|].
    + cbn [bind]. rewrite land_pow2_testbit by lia.
      replace (i mod 8) with (Z.of_nat (Z.to_nat (i mod 8))) by lia.
      rewrite pack_byte_testbit.
      assert (Hlt : (Z.to_nat (i mod 8) <? 8)%nat = true) by (apply Nat.ltb_lt; lia).
      rewrite Hlt.
      replace (8 * Z.to_nat (i / 8) + Z.to_nat (i mod 8))%nat with (Z.to_nat i) by lia.
      destruct (nth (Z.to_nat i) bits false); reflexivity.
    + unfold pack. rewrite nth_error_map, nth_error_seq.
      assert (Hlt : (Z.to_nat (i / 8) <? (length bits + 7) / 8)%nat = true)
        by (apply Nat.ltb_lt; lia).
      rewrite Hlt. reflexivity.
  - rewrite py_get_out; [reflexivity|]. unfold Zlen. rewrite pack_length. lia.
Qed.

Lemma nth_set_nth {A} k (x d : A) l j : (k < length l)%nat ->
  nth j (set_nth k x l) d = if (j =? k)%nat then x else nth j l d.
Proof.
  revert k j; induction l as [|y l IH]; intros k j Hk; simpl in Hk; [lia|].
  destruct k, j; simpl; try reflexivity. apply IH. lia.
Qed.

Lemma byte_set (bits : list bool) n val :
  (if negb (val =? 0) then Z.lor (pack_byte bits (n / 8)) (2 ^ Z.of_nat (n mod 8))
   else Z.land (pack_byte bits (n / 8)) (Z.lnot (2 ^ Z.of_nat (n mod 8)))) =
  pack_byte (set_nth n (truthy val) (bits ++ repeat false (n + 1 - length bits))) (n / 8).
Proof.
  set (bits' := bits ++ repeat false (n + 1 - length bits)).
  assert (Hlen : (n < length bits')%nat) by (unfold bits'; rewrite app_length, repeat_length; lia).
  assert (Hnth : forall j, nth j bits' false = nth j bits false).
  { intros j. unfold bits'. destruct (Nat.lt_ge_cases j (length bits)) as [H|H].
    - rewrite app_nth1 by exact H. reflexivity.
    - rewrite app_nth2, (nth_overflow bits) by exact H.
      destruct (Nat.lt_ge_cases (j - length bits) (length (repeat false (n + 1 - length bits)))) as [H'|H'].
      + generalize (n + 1 - length bits)%nat (j - length bits)%nat. clear.
        induction n; intros [|j]; simpl; auto.
      + apply nth_overflow; exact H'. }
  pose proof (Nat.mod_upper_bound n 8 ltac:(lia)) as Hm.
  pose proof (Nat.div_mod n 8 ltac:(lia)) as Hdm.
  apply Z.bits_inj'. intros k Hk.
  replace k with (Z.of_nat (Z.to_nat k)) by lia. generalize (Z.to_nat k); clear k Hk; intros k.
  rewrite pack_byte_testbit, nth_set_nth, Hnth by exact Hlen.
  unfold truthy. destruct (val =? 0); cbn [negb].
  - rewrite Z.land_spec, Z.lnot_spec, pack_byte_testbit by lia.
    rewrite Z.pow2_bits_eqb by lia.
    destruct (Nat.ltb_spec k 8) as [H|H]; [|reflexivity].
    destruct (Nat.eqb_spec (8 * (n / 8) + k) n) as [E|E];
    destruct (Z.eqb_spec (Z.of_nat (n mod 8)) (Z.of_nat k)) as [F|F]; try lia; cbn [negb];
    rewrite ?andb_false_r, ?andb_true_r; reflexivity.
  - rewrite Z.lor_spec, pack_byte_testbit by lia.
    rewrite Z.pow2_bits_eqb by lia.
    destruct (Nat.ltb_spec k 8) as [H|H].
    + destruct (Nat.eqb_spec (8 * (n / 8) + k) n) as [E|E];
      destruct (Z.eqb_spec (Z.of_nat (n mod 8)) (Z.of_nat k)) as [F|F]; try lia;
      rewrite ?orb_true_r, ?orb_false_r; reflexivity.
    + destruct (Z.eqb_spec (Z.of_nat (n mod 8)) (Z.of_nat k)) as [F|F]; [lia|reflexivity].
Qed.

Lemma ba_set_repr b bits i v : ba_repr b bits -> 0 <= i < Zlen bits ->
  exists b', ba_set b i v = Ok b' /\ ba_repr b' (set_nth (Z.to_nat i) (truthy v) bits).
Proof.
  intros [Hb [Hn Hl]] Hi. unfold Zlen in *.
  assert (Hi' : i = Z.of_nat (Z.to_nat i)) by lia.
  set (n := Z.to_nat i) in *.
  assert (Hdiv : i / 8 = Z.of_nat (n / 8)) by (rewrite Hi', Nat2Z.inj_div; reflexivity).
  assert (Hmod : i mod 8 = Z.of_nat (n mod 8)) by (rewrite Hi', Nat2Z.inj_mod; reflexivity).
  pose proof (Nat.mod_upper_bound n 8 ltac:(lia)) as Hm.
  pose proof (Nat.div_mod n 8 ltac:(lia)) as Hdm.
  assert (Hnb : nth_error (pack bits) (n / 8) = Some (pack_byte bits (n / 8))).
  { rewrite nth_error_pack. destruct (Nat.ltb_spec (8 * (n / 8)) (length bits)); [reflexivity|lia]. }
  assert (Hpl : (n / 8 < length (pack bits))%nat) by (apply nth_error_Some; congruence).
  unfold ba_set. rewrite Hb, Hdiv, Hmod.
  rewrite (py_get_nat _ _ (pack_byte bits (n / 8))); [|lia|rewrite Nat2Z.id; exact Hnb].
  cbn [bind]. rewrite byte_set.
  rewrite py_set_nat by (unfold Zlen; lia). cbn [bind]. rewrite Nat2Z.id.
  eexists; split; [reflexivity|].
  replace (n + 1 - length bits)%nat with O by lia. cbn [repeat]. rewrite app_nil_r.
  split; [|split]; cbn [ba_bytes ba_nbits ba_bitsleft].
  - apply nth_error_ext'. intros j. rewrite nth_error_set_nth, !nth_error_pack, set_nth_length.
    destruct (Nat.eqb_spec j (n / 8)) as [-> |Hne].
    + destruct (8 * (n / 8) <? length bits)%nat; reflexivity.
    + destruct (8 * j <? length bits)%nat; [|reflexivity]. f_equal. apply pack_byte_ext.
      intros k Hk. rewrite nth_set_nth by lia.
      destruct (Nat.eqb_spec (8 * j + k) n) as [E|E]; [exfalso; apply Hne; lia|reflexivity].
  - unfold Zlen. rewrite set_nth_length. exact Hn.
  - unfold Zlen. rewrite set_nth_length. exact Hl.
Qed.

Lemma set_nth_end {A} (l : list A) x y : set_nth (length l) y (l ++ [x]) = l ++ [y].
Proof. induction l; simpl; [reflexivity|congruence]. Qed.

Lemma ba_append_repr b bits v : ba_repr b bits ->
  exists b', ba_append b v = Ok b' /\ ba_repr b' (bits ++ [truthy v]).
Proof.
  intros [Hb [Hn Hl]].
  (* after making room the array represents bits ++ [false], except for the counters *)
  set (b1 := if ba_bitsleft b =? 0 then BitArray (ba_bytes b ++ [0]) (ba_nbits b) 8 else b).
  assert (H1 : ba_repr (BitArray (ba_bytes b1) (ba_nbits b1 + 1) (ba_bitsleft b1 - 1)) (bits ++ [false])).
  { assert (Hpk : ba_bytes b1 = pack (bits ++ [false])).
    { apply nth_error_ext'. intros j. rewrite nth_error_pack, app_length. cbn [length].
      unfold b1. unfold Zlen in *.
      pose proof (Nat.div_mod (length bits + 7) 8 ltac:(lia)) as D1.
      pose proof (Nat.mod_upper_bound (length bits + 7) 8 ltac:(lia)) as D2.
      assert (Hext : pack_byte bits j = pack_byte (bits ++ [false]) j).
      { apply pack_byte_ext. intros i Hi.
        destruct (Nat.lt_ge_cases (8 * j + i) (length bits)) as [H|H].
        - rewrite app_nth1 by exact H; reflexivity.
        - rewrite app_nth2, (nth_overflow bits) by exact H.
          destruct (8 * j + i - length bits)%nat as [|[|?]]; reflexivity. }
      destruct (Z.eqb_spec (ba_bitsleft b) 0) as [E|E]; cbn [ba_bytes]; rewrite Hb.
      - assert (Hd : (length bits = 8 * ((length bits + 7) / 8))%nat) by lia.
        destruct (Nat.lt_ge_cases j (length (pack bits))) as [H|H].
        + rewrite nth_error_app1 by exact H. rewrite nth_error_pack, Hext.
          rewrite pack_length in H.
          destruct (Nat.ltb_spec (8 * j) (length bits)), (Nat.ltb_spec (8 * j) (length bits + 1));
            try reflexivity; lia.
        + rewrite nth_error_app2 by exact H. rewrite pack_length in *.
          destruct (Nat.ltb_spec (8 * j) (length bits + 1)) as [F|F].
          * replace (j - (length bits + 7) / 8)%nat with O by lia. cbn [nth_error].
            f_equal. rewrite <- Hext. symmetry.
            rewrite (pack_byte_ext bits []).
            { unfold pack_byte. cbn [map]. rewrite !nth_overflow by (simpl; lia). reflexivity. }
            intros i Hi. rewrite !nth_overflow; [reflexivity|simpl; lia|lia].
          * apply nth_error_None. cbn [length]. lia.
      - rewrite nth_error_pack, Hext.
        destruct (Nat.ltb_spec (8 * j) (length bits)), (Nat.ltb_spec (8 * j) (length bits + 1));
            try reflexivity; lia. }
    split; [exact Hpk|]. cbn [ba_bytes ba_nbits ba_bitsleft].
    unfold Zlen in *. rewrite app_length. cbn [length].
    pose proof (Nat.div_mod (length bits + 7) 8 ltac:(lia)) as D1.
    pose proof (Nat.mod_upper_bound (length bits + 7) 8 ltac:(lia)) as D2.
    pose proof (Nat.div_mod (length bits + 1 + 7) 8 ltac:(lia)) as D3.
    pose proof (Nat.mod_upper_bound (length bits + 1 + 7) 8 ltac:(lia)) as D4.
    unfold b1. destruct (Z.eqb_spec (ba_bitsleft b) 0) as [E|E]; cbn [ba_nbits ba_bitsleft]; split; lia. }
  assert (Hn1 : ba_nbits b1 = Zlen bits) by (unfold b1; destruct (ba_bitsleft b =? 0); exact Hn).
  destruct (ba_set_repr _ _ (ba_nbits b1) v H1) as [b2 [Hs Hr]].
  { rewrite Hn1. unfold Zlen. rewrite app_length. cbn [length]. lia. }
  unfold ba_append. fold b1.
  unfold ba_set in Hs |- *. cbn [ba_bytes ba_nbits ba_bitsleft] in Hs.
  destruct (py_get (ba_bytes b1) (ba_nbits b1 / 8)) as [x|]; [|discriminate]. cbn [bind] in *.
  destruct (py_set (ba_bytes b1) (ba_nbits b1 / 8) _) as [bs|]; [|discriminate]. cbn [bind] in *.
  injection Hs as <-. eexists; split; [reflexivity|].
  cbn [ba_bytes ba_nbits ba_bitsleft]. rewrite Hn1 in *. unfold Zlen in Hr.
  rewrite Nat2Z.id, set_nth_end in Hr. exact Hr.
Qed.

Lemma ba_repr_fun b b' bits : ba_repr b bits -> ba_repr b' bits -> b = b'.
Proof.
  destruct b, b'. intros [H1 [H2 H3]] [H4 [H5 H6]]. cbn in *. congruence.
Qed.

(** ** Rice codes *)
(** The code of one value: unary quotient, zero, [m] low bits, high bit first. *)
Fixpoint binary_bits (k : nat) (r : Z) : list bool :=
  match k with
  | O => []
  | S k' => Z.testbit r (Z.of_nat k') :: binary_bits k' r
  end.
Definition value_bits (m v : Z) : list bool :=
  repeat true (Z.to_nat ((v - 1) / 2 ^ m)) ++ [false] ++ binary_bits (Z.to_nat m) ((v - 1) mod 2 ^ m).

Lemma append_ones_repr q b bits : ba_repr b bits ->
  exists b', append_ones q b = Ok b' /\ ba_repr b' (bits ++ repeat true q).
Proof.
  revert b bits; induction q as [|q IH]; intros b bits H; cbn [append_ones repeat].
  - exists b. rewrite app_nil_r. auto.
  - destruct (ba_append_repr b bits 1 H) as [b1 [-> H1]]. cbn [bind].
    destruct (IH b1 _ H1) as [b2 [H2 H3]]. exists b2. split; [exact H2|].
    rewrite <- app_assoc in H3. exact H3.
Qed.

Lemma shiftr_mask k : Z.shiftr (2 ^ Z.of_nat (S k)) 1 = 2 ^ Z.of_nat k.
Proof.
  rewrite Z.shiftr_div_pow2 by lia. change (2 ^ 1) with 2.
  rewrite Nat2Z.inj_succ, Z.pow_succ_r by lia. rewrite Z.mul_comm, Z.div_mul by lia. reflexivity.
Qed.

Lemma append_binary_repr k fuel r b bits :
  ba_repr b bits -> (k < fuel)%nat ->
  exists b', append_binary fuel r (match k with O => 0 | S j => 2 ^ Z.of_nat j end) b = Ok b' /\
             ba_repr b' (bits ++ binary_bits k r).
Proof.
  revert fuel b bits; induction k as [|k IH]; intros fuel b bits H Hf.
  - destruct fuel; [lia|]. cbn. exists b. rewrite app_nil_r. auto.
  - destruct fuel as [|fuel]; [lia|]. cbn [append_binary].
    assert (Hpos : 0 < 2 ^ Z.of_nat k) by (apply Z.pow_pos_nonneg; lia).
    destruct (Z.eqb_spec (2 ^ Z.of_nat k) 0) as [E|E]; [lia|].
    destruct (ba_append_repr b bits (Z.land r (2 ^ Z.of_nat k)) H) as [b1 [-> H1]]. cbn [bind].
    destruct (IH fuel b1 _ H1 ltac:(lia)) as [b2 [H2 H3]].
    exists b2. split.
    + rewrite <- H2. f_equal. destruct k as [|k]; [reflexivity|]. apply shiftr_mask.
    + cbn [binary_bits]. unfold truthy in H3. rewrite land_pow2_testbit in H3 by lia.
      rewrite <- app_assoc in H3. exact H3.
Qed.

Definition rc_repr (c : rice) (m : Z) (vs : list Z) : Prop :=
  1 <= m <= 16 /\ rc_m c = m /\ rc_lower c = 2 ^ m - 1 /\ rc_mask c = 2 ^ (m - 1) /\
  rc_len c = Zlen vs /\ Forall (fun v => 1 <= v) vs /\
  ba_repr (rc_bits c) (concat (map (value_bits m) vs)).

Lemma rc_new_repr m : 1 <= m <= 16 -> exists c, rc_new m = Ok c /\ rc_repr c m [].
Proof.
  intros Hm. unfold rc_new, rc_init.
  replace ((m <? 0) || (16 <? m)) with false by lia.
  replace (m <? 0) with false by lia. replace (m - 1 <? 0) with false by lia.
  eexists; split; [reflexivity|]. repeat split; cbn; try lia.
  - rewrite Z.shiftl_mul_pow2 by lia. lia.
  - rewrite Z.shiftl_mul_pow2 by lia. lia.
  - constructor.
Qed.

Lemma rc_append_repr c m vs v : rc_repr c m vs -> 1 <= v ->
  exists c', rc_append c v = (c', None) /\ rc_repr c' m (vs ++ [v]).
Proof.
  intros (Hm & Hcm & Hlo & Hma & Hlen & Hvs & Hb) Hv. unfold rc_append.
  replace (v <? 1) with false by lia. unfold rc_append_body.
  rewrite Hcm, Hlo, Hma.
  destruct (append_ones_repr (Z.to_nat (Z.shiftr (v - 1) m)) _ _ Hb) as [b1 [-> H1]]. cbn [bind].
  destruct (ba_append_repr _ _ 0 H1) as [b2 [-> H2]]. cbn [bind].
  assert (Hr : Z.land (v - 1) (2 ^ m - 1) = (v - 1) mod 2 ^ m).
  { replace (2 ^ m - 1) with (Z.ones m) by (rewrite Z.ones_equiv; lia). apply Z.land_ones; lia. }
  rewrite Hr.
  destruct (append_binary_repr (Z.to_nat m) (Z.to_nat m + 1) ((v - 1) mod 2 ^ m) _ _ H2 ltac:(lia))
    as [b3 [H3 H4]].
  assert (Hmask : 2 ^ (m - 1) = match Z.to_nat m with O => 0 | S j => 2 ^ Z.of_nat j end).
  { destruct (Z.to_nat m) eqn:E; [lia|]. f_equal. lia. }
  rewrite Hmask, H3. cbn [bind]. eexists; split; [reflexivity|].
  unfold rc_repr; cbn [rc_m rc_lower rc_mask rc_len rc_bits]. splits; try lia; try assumption.
  - unfold Zlen in *. rewrite app_length. cbn [length]. lia.
  - apply Forall_app; split; [exact Hvs|]. constructor; [exact Hv|constructor].
  - rewrite map_app, concat_app. cbn [map concat]. rewrite app_nil_r.
    rewrite Z.shiftr_div_pow2 in H4 by lia.
    change (truthy 0) with false in H4. rewrite <- !app_assoc in H4. exact H4.
Qed.

Lemma rc_append_all_repr l c m vs : rc_repr c m vs -> Forall (fun v => 1 <= v) l ->
  exists c', rc_append_all c l = (c', None) /\ rc_repr c' m (vs ++ l).
Proof.
  intros Hc Hl. revert c vs Hc; induction Hl as [|v l Hv Hl IH]; intros c vs Hc; cbn [rc_append_all].
  - exists c. rewrite app_nil_r. auto.
  - destruct (rc_append_repr c m vs v Hc Hv) as [c1 [-> H1]].
    destruct (IH c1 _ H1) as [c2 [H2 H3]]. exists c2. split; [exact H2|].
    rewrite <- app_assoc in H3. exact H3.
Qed.

Lemma rc_append_all_bad l c m vs : rc_repr c m vs -> ~ Forall (fun v => 1 <= v) l ->
  exists c', rc_append_all c l = (c', Some ValueError).
Proof.
  revert c vs; induction l as [|v l IH]; intros c vs Hc Hl; [destruct Hl; constructor|]. cbn [rc_append_all].
  destruct (Z_lt_le_dec v 1) as [Hv|Hv].
  - unfold rc_append. replace (v <? 1) with true by lia. eauto.
  - destruct (rc_append_repr c m vs v Hc Hv) as [c1 [-> H1]]. apply (IH c1 _ H1). intros H. apply Hl. constructor; assumption.
Qed.

(** Reading back. *)
Lemma get_in b bits i : ba_repr b bits -> (i < length bits)%nat ->
  ba_get b (Z.of_nat i) = Ok (bit (nth i bits false)).
Proof.
  intros H Hi. rewrite (ba_get_repr b bits) by (exact H || lia).
  pose proof (Nat.div_mod (length bits + 7) 8 ltac:(lia)).
  pose proof (Nat.mod_upper_bound (length bits + 7) 8 ltac:(lia)).
  destruct (Z.ltb_spec (Z.of_nat i) (8 * Z.of_nat ((length bits + 7) / 8))); [|lia].
  rewrite Nat2Z.id. reflexivity.
Qed.

Lemma read_unary_repr q fuel b pre post u :
  ba_repr b (pre ++ repeat true q ++ [false] ++ post) -> (q < fuel)%nat ->
  read_unary fuel b u (Z.of_nat (length pre)) =
  Ok (u + Z.of_nat q, Z.of_nat (length pre + q)).
Proof.
  revert fuel pre u; induction q as [|q IH]; intros fuel pre u Hb Hf;
    (destruct fuel as [|fuel]; [lia|]); cbn [read_unary].
  - rewrite (get_in b _ _ Hb) by (rewrite !app_length; cbn [length repeat]; lia).
    rewrite app_nth2, Nat.sub_diag by lia. cbn [repeat app nth bit bind Z.eqb].
    f_equal. f_equal; f_equal; lia.
  - rewrite (get_in b _ _ Hb) by (rewrite !app_length; cbn [length repeat]; lia).
    rewrite app_nth2, Nat.sub_diag by lia. cbn [repeat app nth bit bind Z.eqb Pos.eqb].
    replace (Z.of_nat (length pre) + 1) with (Z.of_nat (length (pre ++ [true])))
      by (rewrite app_length; cbn [length]; lia).
    rewrite IH; [|rewrite <- app_assoc; exact Hb|lia].
    rewrite app_length. cbn [length]. f_equal. f_equal; [lia|]. f_equal. lia.
Qed.

Lemma bits_mod_step r k : 0 <= k ->
  r mod 2 ^ (k + 1) = (if Z.testbit r k then 2 ^ k else 0) + r mod 2 ^ k.
Proof.
  intros Hk. rewrite Z.pow_add_r by lia. change (2 ^ 1) with 2.
  pose proof (Z.testbit_spec' r k Hk) as Ht.
  assert (0 < 2 ^ k) by (apply Z.pow_pos_nonneg; lia).
  rewrite Z.rem_mul_r by lia. rewrite <- Ht.
  destruct (Z.testbit r k); cbn [Z.b2z]; lia.
Qed.

Lemma read_binary_repr k b pre post r acc :
  ba_repr b (pre ++ binary_bits k r ++ post) -> 0 <= acc ->
  read_binary k b acc (Z.of_nat (length pre)) =
  Ok (acc * 2 ^ Z.of_nat k + r mod 2 ^ Z.of_nat k, Z.of_nat (length pre + k)).
Proof.
  revert pre acc; induction k as [|k IH]; intros pre acc Hb Hacc; cbn [read_binary].
  - change (2 ^ Z.of_nat 0) with 1. rewrite Z.mod_1_r. f_equal. f_equal; [lia|]. f_equal; lia.
  - cbn [binary_bits app] in Hb.
    rewrite (get_in b _ _ Hb) by (rewrite !app_length; cbn [length]; lia).
    rewrite app_nth2, Nat.sub_diag by lia. cbn [nth bind].
    replace (Z.of_nat (length pre) + 1)
      with (Z.of_nat (length (pre ++ [Z.testbit r (Z.of_nat k)])))
      by (rewrite app_length; cbn [length]; lia).
    assert (Hsh : Z.lor (Z.shiftl acc 1) (bit (Z.testbit r (Z.of_nat k))) =
                  acc * 2 + bit (Z.testbit r (Z.of_nat k))).
    { rewrite Z.shiftl_mul_pow2 by lia. change (2 ^ 1) with 2.
      destruct (Z.testbit r (Z.of_nat k)); cbn [bit].
      - rewrite (Z.mul_comm acc 2). destruct acc; try reflexivity; lia.
      - rewrite Z.lor_0_r. lia. }
    rewrite Hsh, IH; [| |destruct (Z.testbit r (Z.of_nat k)); cbn [bit]; lia].
    + rewrite app_length. cbn [length]. rewrite Nat2Z.inj_succ. unfold Z.succ.
      rewrite bits_mod_step by lia. rewrite Z.pow_add_r by lia. change (2 ^ 1) with 2.
      f_equal. f_equal; [|f_equal; lia].
      destruct (Z.testbit r (Z.of_nat k)); cbn [bit]; ring.
    + rewrite <- app_assoc. exact Hb.
Qed.

Lemma binary_bits_length k r : length (binary_bits k r) = k.
Proof. induction k; simpl; congruence. Qed.

Lemma read_items_repr vs c m done :
  rc_repr c m (done ++ vs) ->
  read_items (length vs) c (Z.of_nat (length (concat (map (value_bits m) done)))) = Ok vs.
Proof.
  revert done; induction vs as [|v vs IH]; intros done Hc; cbn [length read_items]; [reflexivity|].
  destruct Hc as (Hm & Hcm & Hlo & Hma & Hlen & Hvs & Hb).
  pose proof Hb as Hb0. rewrite map_app, concat_app in Hb. cbn [map concat] in Hb.
  set (pre := concat (map (value_bits m) done)) in *.
  unfold value_bits at 1 in Hb. rewrite <- !app_assoc in Hb.
  assert (Hv : 1 <= v) by (apply Forall_app in Hvs as [_ Hvs]; inversion Hvs; assumption).
  assert (Hpos : 0 < 2 ^ m) by (apply Z.pow_pos_nonneg; lia).
  rewrite (read_unary_repr _ _ _ _ _ _ Hb).
  2:{ destruct Hb as [Hby _]. rewrite Hby, pack_length, !app_length, repeat_length. cbn [length].
      set (L := (length pre + _)%nat).
      assert (HL : (Z.to_nat ((v - 1) / 2 ^ m) < L)%nat) by (unfold L; lia).
      pose proof (Nat.div_mod (L + 7) 8 ltac:(lia)).
      pose proof (Nat.mod_upper_bound (L + 7) 8 ltac:(lia)). lia. }
  cbn [bind].
  rewrite (get_in _ _ _ Hb) by (rewrite !app_length, repeat_length; cbn [length]; lia).
  rewrite app_assoc, app_nth2 by (rewrite app_length, repeat_length; lia).
  rewrite app_length, repeat_length.
  replace (_ - _)%nat with O by lia. cbn [nth app bit bind Z.eqb negb].
  rewrite Hcm.
  replace (Z.of_nat (length pre + Z.to_nat ((v - 1) / 2 ^ m)) + 1)
    with (Z.of_nat (length (pre ++ repeat true (Z.to_nat ((v - 1) / 2 ^ m)) ++ [false])))
    by (rewrite !app_length, repeat_length; cbn [length]; lia).
  rewrite (read_binary_repr (Z.to_nat m) _ _ (concat (map (value_bits m) vs)) ((v - 1) mod 2 ^ m)); [| |lia].
  2:{ rewrite <- !app_assoc. exact Hb. }
  cbn [bind].
  specialize (IH (done ++ [v])). rewrite <- app_assoc in IH. cbn [app] in IH.
  assert (Hpos' : Z.of_nat (length (pre ++ repeat true (Z.to_nat ((v - 1) / 2 ^ m)) ++ [false]) + Z.to_nat m)
    = Z.of_nat (length (concat (map (value_bits m) (done ++ [v]))))).
  { rewrite map_app, concat_app, app_length. cbn [map concat]. rewrite app_nil_r.
    unfold value_bits at 2. fold pre.
    rewrite !app_length, repeat_length, binary_bits_length. cbn [length]. lia. }
  rewrite Hpos', IH by (unfold rc_repr; splits; assumption || lia). cbn [bind].
  assert (Hq : 0 <= (v - 1) / 2 ^ m) by (apply Z.div_pos; lia).
  f_equal. f_equal. rewrite !Z2Nat.id by (exact Hq || lia).
  rewrite Z.shiftl_mul_pow2, Z.mod_mod by lia.
  pose proof (Z.div_mod (v - 1) (2 ^ m) ltac:(lia)). lia.
Qed.

Lemma rc_tolist_repr c m vs : rc_repr c m vs -> rc_tolist c = Ok vs.
Proof.
  intros Hc. pose proof (read_items_repr vs c m [] Hc) as H. cbn in H.
  unfold rc_tolist. destruct Hc as (_ & _ & _ & _ & -> & _). unfold Zlen. rewrite Nat2Z.id. exact H.
Qed.

(** ** Statements used by the property file *)
Lemma rice_roundtrip m l : 1 <= m <= 16 -> Forall (fun v => 1 <= v) l ->
  exists c0 c, rc_new m = Ok c0 /\ rc_append_all c0 l = (c, None) /\
               rc_length c = Zlen l /\ rc_tolist c = Ok l /\ rice_encode m l = Ok c.
Proof.
  intros Hm Hl. destruct (rc_new_repr m Hm) as [c0 [H0 Hr0]].
  destruct (rc_append_all_repr l c0 m [] Hr0 Hl) as [c [Hc Hr]]. cbn [app] in Hr.
  exists c0, c. pose proof (rc_tolist_repr c m l Hr) as Ht. splits; try assumption.
  - apply Hr.
  - unfold rice_encode. rewrite H0. cbn [bind]. rewrite Hc, Ht. cbn [bind].
    destruct (list_eq_dec Z.eq_dec l l); [reflexivity|contradiction].
Qed.

Lemma rice_encode_bad m l : 1 <= m <= 16 -> ~ Forall (fun v => 1 <= v) l -> rice_encode m l = Raise ValueError.
Proof.
  intros Hm Hl. destruct (rc_new_repr m Hm) as [c0 [H0 Hr0]]. destruct (rc_append_all_bad l c0 m [] Hr0 Hl) as [c Hc].
  unfold rice_encode. rewrite H0. cbn [bind]. rewrite Hc. reflexivity.
Qed.

Lemma rice_append_bad c v : v < 1 -> rc_append c v = (c, Some ValueError).
Proof. intros H. unfold rc_append. replace (v <? 1) with true by lia. reflexivity. Qed.

(** Any interleaving of good and bad appends: bad ones are ignored. *)
Lemma rice_history m l c0 : 1 <= m <= 16 -> rc_new m = Ok c0 ->
  let c := fold_left (fun c v => fst (rc_append c v)) l c0 in
  rc_tolist c = Ok (filter (fun v => 1 <=? v) l) /\
  rc_length c = Zlen (filter (fun v => 1 <=? v) l).
Proof.
  intros Hm H0. destruct (rc_new_repr m Hm) as [c0' [H0' Hr]]. rewrite H0 in H0'. injection H0' as <-.
  assert (Hgen : forall l c vs, rc_repr c m vs ->
    rc_repr (fold_left (fun c v => fst (rc_append c v)) l c) m (vs ++ filter (fun v => 1 <=? v) l)).
  { clear. induction l as [|v l IH]; intros c vs Hc; cbn [fold_left filter].
    - rewrite app_nil_r. exact Hc.
    - destruct (1 <=? v) eqn:E.
      + destruct (rc_append_repr c m vs v Hc ltac:(lia)) as [c1 [H1 Hc1]]. rewrite H1. cbn [fst].
        specialize (IH c1 _ Hc1). rewrite <- app_assoc in IH. exact IH.
      + rewrite rice_append_bad by lia. cbn [fst]. apply IH, Hc. }
  specialize (Hgen l c0 [] Hr). cbn [app] in Hgen. cbv zeta. split.
  - apply rc_tolist_repr with m. exact Hgen.
  - apply Hgen.
Qed.

Lemma rice_new_iff m : (exists c, rc_new m = Ok c) <-> 1 <= m <= 16.
Proof.
  split.
  - intros [c Hc]. unfold rc_new, rc_init in Hc.
    destruct ((m <? 0) || (16 <? m)) eqn:E1; [discriminate|].
    destruct (m <? 0) eqn:E2; [discriminate|]. destruct (m - 1 <? 0) eqn:E3; [discriminate|]. lia.
  - intros Hm. destruct (rc_new_repr m Hm) as [c [H _]]. exists c; exact H.
Qed.

Lemma rice_new_error m : ~ 1 <= m <= 16 -> rc_new m = Raise ValueError.
Proof.
  intros Hm. unfold rc_new, rc_init.
  destruct ((m <? 0) || (16 <? m)) eqn:E1; [reflexivity|].
  destruct (m <? 0) eqn:E2; [reflexivity|]. destruct (m - 1 <? 0) eqn:E3; [reflexivity|]. lia.
Qed.
Lemma rice_encode_width m l : ~ 1 <= m <= 16 -> rice_encode m l = Raise ValueError.
Proof. intros Hm. unfold rice_encode. rewrite (rice_new_error m Hm). reflexivity. Qed.

Lemma rice_pickle m l c0 c : 1 <= m <= 16 -> Forall (fun v => 1 <= v) l ->
  rc_new m = Ok c0 -> rc_append_all c0 l = (c, None) ->
  exists c', rc_setstate (rc_getstate c) = Ok c' /\
    rc_m c' = rc_m c /\ rc_tostring c' = rc_tostring c /\ rc_bits c' = rc_bits c /\
    rc_length c' = 0 /\ rc_tolist c' = Ok [] /\
    (rc_tolist c' = rc_tolist c <-> l = []).
Proof.
  intros Hm Hl H0 Hc. destruct (rice_roundtrip m l Hm Hl) as (c0' & c' & H0' & Hc' & Hlen & Ht & _).
  rewrite H0 in H0'. injection H0' as <-. rewrite Hc in Hc'. injection Hc' as <-.
  destruct (rc_append_all_repr l c0 m [] ltac:(destruct (rc_new_repr m Hm) as [x [Hx Hr]]; congruence) Hl)
    as [c1 [Hc1 Hr]]. rewrite Hc in Hc1. injection Hc1 as <-.
  destruct Hr as (_ & Hcm & _). rewrite Ht. destruct c as [cm clo cma cb cl]. cbn in Hcm. subst cm.
  unfold rc_setstate, rc_getstate, rc_init. cbn [rc_m rc_bits].
  replace (m <? 0) with false by lia. replace (m - 1 <? 0) with false by lia.
  eexists; split; [reflexivity|]. unfold rc_tostring, rc_length, rc_tolist. cbn [rc_m rc_bits rc_len].
  destruct cb as [bs nb bl]. cbn. splits; try reflexivity. split; congruence.
Qed.

(** Deltas *)
Fixpoint diffs (prev : Z) (l : list Z) : list Z :=
  match l with [] => [] | x :: l' => (x - prev) :: diffs x l' end.

Lemma append_deltas_repr l c vs prev : rc_repr c 6 vs -> Forall (fun d => 1 <= d) (diffs prev l) ->
  exists c', append_deltas c prev l = (c', None) /\ rc_repr c' 6 (vs ++ diffs prev l).
Proof.
  revert c vs prev; induction l as [|x l IH]; intros c vs prev Hc Hd; cbn [append_deltas diffs] in *.
  - exists c. rewrite app_nil_r. auto.
  - inversion Hd as [|? ? Hx Hl]; subst.
    destruct (rc_append_repr c 6 vs (x - prev) Hc Hx) as [c1 [-> H1]].
    destruct (IH c1 _ x H1 Hl) as [c2 [H2 H3]]. exists c2. split; [exact H2|].
    rewrite <- app_assoc in H3. exact H3.
Qed.

Lemma append_deltas_bad l c prev : Exists (fun d => d < 1) (diffs prev l) ->
  (forall vs, rc_repr c 6 vs -> exists c', append_deltas c prev l = (c', Some ValueError)).
Proof.
  revert c prev; induction l as [|x l IH]; intros c prev He vs Hc; cbn [append_deltas diffs] in *;
    [inversion He|].
  destruct (Z_lt_ge_dec (x - prev) 1) as [Hb|Hb].
  - rewrite rice_append_bad by exact Hb. eexists; reflexivity.
  - destruct (rc_append_repr c 6 vs (x - prev) Hc ltac:(lia)) as [c1 [-> H1]].
    inversion He as [? ? Hx|? ? Hx]; subst; [lia|]. exact (IH c1 x Hx _ H1).
Qed.

Lemma diffs_increasing x l : Forall (fun d => 1 <= d) (diffs x l) <-> Sorted Z.lt (x :: l).
Proof.
  revert x; induction l as [|y l IH]; intros x; cbn [diffs].
  - split; intros; repeat constructor.
  - split.
    + intros H; inversion H as [|? ? H1 H2]; subst. apply IH in H2.
      constructor; [exact H2|]. constructor. lia.
    + intros H. inversion H as [|? ? H1 H2]; subst. constructor.
      * inversion H2; subst. lia.
      * apply IH; exact H1.
Qed.

Lemma const_step_diffs x l : const_step (x :: l) <-> exists d, Forall (fun e => e = d) (diffs x l).
Proof.
  split; intros [d H]; exists d.
  - revert x H; induction l as [|y l IH]; intros x H; cbn [diffs]; constructor.
    + exact (H O x y eq_refl eq_refl).
    + apply IH. intros i a b Ha Hb. exact (H (S i) a b Ha Hb).
  - revert x H; induction l as [|y l IH]; intros x H i a b Ha Hb; cbn [diffs] in H.
    + destruct i; discriminate.
    + inversion H as [|? ? H1 H2]; subst. destruct i as [|i].
      * cbn in Ha, Hb. injection Ha as <-. injection Hb as <-. reflexivity.
      * exact (IH y H2 i a b Ha Hb).
Qed.

Lemma add_deltas_diffs x l : add_deltas x (diffs x l) = l.
Proof.
  revert x; induction l as [|y l IH]; intros x; cbn [diffs add_deltas]; [reflexivity|].
  replace (x + (y - x)) with y by lia. rewrite IH. reflexivity.
Qed.

Lemma add_deltas_inj x ds ds' : add_deltas x ds = add_deltas x ds' -> ds = ds'.
Proof.
  revert x ds'; induction ds as [|d ds IH]; intros x [|d' ds'] H; cbn [add_deltas] in H;
    try discriminate; [reflexivity|].
  injection H as Hd H. assert (d = d') by lia. subst d'. f_equal. exact (IH _ _ H).
Qed.

Lemma last_cons_default {A} (x d : A) l : last (x :: l) d = last l x.
Proof.
  revert x d; induction l as [|y l IH]; intros x d; [reflexivity|].
  change (last (x :: y :: l) d) with (last (y :: l) d). rewrite !IH. reflexivity.
Qed.

Lemma add_deltas_snoc x ds d :
  add_deltas x (ds ++ [d]) = add_deltas x ds ++ [last (add_deltas x ds) x + d].
Proof.
  revert x; induction ds as [|e ds IH]; intros x; cbn [app add_deltas]; [reflexivity|].
  rewrite IH. cbn [app]. rewrite last_cons_default. reflexivity.
Qed.

Lemma shift_eq_const (d0 : Z) ds : tl (d0 :: ds) ++ [last (d0 :: ds) 0] = d0 :: ds <->
  Forall (fun e => e = d0) (d0 :: ds).
Proof.
  cbn [tl]. revert d0; induction ds as [|d1 ds IH]; intros d0.
  - cbn. split; [intros _; repeat constructor|reflexivity].
  - cbn [app]. change (last (d0 :: d1 :: ds) 0) with (last (d1 :: ds) 0). split.
    + intros H. injection H as -> H. apply IH in H. constructor; [reflexivity|exact H].
    + intros H. inversion H as [|? ? _ H1]; subst. inversion H1 as [|? ? H2 H3]; subst.
      f_equal. apply IH. exact H1.
Qed.

Lemma last_app_single {A} (l : list A) x d : last (l ++ [x]) d = x.
Proof. induction l as [|y l IH]; [reflexivity|]. cbn [app last]. destruct (l ++ [x]) eqn:E; [destruct l; discriminate|exact IH]. Qed.

Lemma py_get_last' {A} (l : list A) d : l <> [] -> py_get l (-1) = Ok (last l d).
Proof.
  intros H. destruct (exists_last H) as [l' [x ->]]. rewrite py_get_last, last_app_single. reflexivity.
Qed.

Lemma deltas_decode x l : l <> [] -> Sorted Z.lt (x :: l) ->
  exists e l', encode_deltas (x :: l) = Ok (x, e) /\ decode_deltas x e = Ok l' /\
    length l' = length (x :: l) /\ (l' = x :: l <-> const_step (x :: l)).
Proof.
  intros Hne Hs. apply diffs_increasing in Hs as Hd.
  destruct (rc_new_repr 6 ltac:(lia)) as [c0 [H0 Hr0]].
  destruct (append_deltas_repr l c0 [] x Hr0 Hd) as [c [Hc Hr]]. cbn [app] in Hr.
  destruct l as [|y l]; [contradiction|].
  exists (Some c). unfold encode_deltas, decode_deltas. rewrite H0. cbn [bind]. rewrite Hc.
  pose proof (rc_tolist_repr c 6 _ Hr) as Ht. rewrite Ht.
  assert (Hlen : rc_length c = Zlen (diffs x (y :: l))) by apply Hr.
  rewrite Hlen. unfold Zlen. cbn [diffs length].
  destruct (Z.eqb_spec (Z.of_nat (S (length (diffs y l)))) 0) as [E|E]; [lia|]. cbn [bind tl].
  rewrite (py_get_last' (x :: add_deltas x (diffs y l)) 0) by discriminate. cbn [bind].
  rewrite (py_get_last' (y - x :: diffs y l) 0) by discriminate. cbn [bind].
  eexists; splits; [reflexivity|reflexivity| |].
  - cbn [length app]. rewrite app_length. cbn [length].
    assert (forall u ds, length (add_deltas u ds) = length ds) as Hal
      by (intros u ds; revert u; induction ds; intros; cbn [add_deltas length]; auto).
    assert (forall u m, length (diffs u m) = length m) as Hdl
      by (intros u m; revert u; induction m; intros; cbn [diffs length]; auto).
    rewrite Hal, Hdl. lia.
  - rewrite last_cons_default. cbn [app].
    rewrite <- add_deltas_snoc. rewrite const_step_diffs. cbn [diffs]. split.
    + intros H. injection H as H. exists (y - x). apply shift_eq_const. cbn [tl].
      apply (add_deltas_inj x). cbn [add_deltas]. replace (x + (y - x)) with y by lia.
      rewrite add_deltas_diffs. exact H.
    + intros [d Hf]. f_equal. inversion Hf as [|? ? H1 H2]; subst d.
      apply shift_eq_const in Hf. cbn [tl] in Hf. rewrite Hf.
      cbn [add_deltas]. replace (x + (y - x)) with y by lia. rewrite add_deltas_diffs. reflexivity.
Qed.

Lemma deltas_single x : encode_deltas [x] = Ok (x, None) /\ decode_deltas x None = Ok [x].
Proof. split; reflexivity. Qed.

Lemma deltas_bad l : ~ Sorted Z.lt l -> encode_deltas l = Raise ValueError.
Proof.
  intros Hs. destruct l as [|x [|y l]]; [exfalso; apply Hs; constructor|exfalso; apply Hs; repeat constructor|].
  unfold encode_deltas. destruct (rc_new_repr 6 ltac:(lia)) as [c0 [H0 Hr0]]. rewrite H0. cbn [bind].
  destruct (append_deltas_bad (y :: l) c0 x) with (vs := @nil Z) as [c' ->]; [|exact Hr0|reflexivity].
  apply Exists_exists. destruct (Forall_Exists_dec (fun d => 1 <= d) (fun d => Z_le_dec 1 d) (diffs x (y :: l))) as [H|H].
  - exfalso. apply Hs, diffs_increasing, H.
  - apply Exists_exists in H as [d [H1 H2]]. exists d. split; [exact H1|lia].
Qed.

Lemma deltas_refuted : exists l, l <> [] /\ Sorted Z.lt l /\
  exists s e, encode_deltas l = Ok (s, e) /\ decode_deltas s e = Ok [1; 6; 11] /\ l <> [1; 6; 11].
Proof.
  exists [1; 2; 7]. splits; [discriminate|repeat constructor; lia|].
  destruct (encode_deltas [1; 2; 7]) as [[s e]|] eqn:E; [|vm_compute in E; discriminate].
  exists s, e. splits; [reflexivity| |discriminate]. vm_compute in E. injection E as <- <-. vm_compute. reflexivity.
Qed.

(** BitArray histories *)
Lemma ba_run_repr os b l l' : ba_repr b l -> bits_run l os = Some l' ->
  exists b', ba_run b os = Ok b' /\ ba_repr b' l'.
Proof.
  revert b l; induction os as [|o os IH]; intros b l Hb Hr; cbn [ba_run bits_run] in *.
  - injection Hr as <-. exists b; auto.
  - destruct o as [v|i v]; cbn [ba_step].
    + destruct (ba_append_repr b l v Hb) as [b1 [-> H1]]. cbn [bind]. exact (IH b1 _ H1 Hr).
    + destruct ((0 <=? i) && (i <? Zlen l)) eqn:E; [|discriminate].
      destruct (ba_set_repr b l i v Hb ltac:(lia)) as [b1 [-> H1]]. cbn [bind]. exact (IH b1 _ H1 Hr).
Qed.

Lemma bitarray_correct os l : bits_run [] os = Some l ->
  exists b, ba_run ba_new os = Ok b /\
    ba_len b = Zlen l /\ ba_tostring b = pack l /\
    (forall i, 0 <= i < Zlen l -> ba_get b i = Ok (bit (nth (Z.to_nat i) l false))) /\
    (forall i, Zlen l <= i < 8 * ((Zlen l + 7) / 8) -> ba_get b i = Ok 0) /\
    (forall i, 8 * ((Zlen l + 7) / 8) <= i -> ba_get b i = Raise IndexError) /\
    ba_setstate (ba_getstate b) = b.
Proof.
  intros Hr. destruct (ba_run_repr os ba_new [] l ba_repr_new Hr) as [b [Hb Hrep]].
  exists b. split; [exact Hb|]. splits.
  - apply Hrep.
  - apply Hrep.
  - intros i Hi. rewrite (ba_get_repr b l) by (assumption || lia). unfold Zlen in *.
    destruct (Z.ltb_spec i (8 * Z.of_nat ((length l + 7) / 8))); [reflexivity|].
    rewrite Nat2Z.inj_div in *. exfalso. lia.
  - intros i Hi. unfold Zlen in *. rewrite (ba_get_repr b l) by (assumption || lia).
    rewrite Nat2Z.inj_div.
    destruct (Z.ltb_spec i (8 * (Z.of_nat (length l + 7) / Z.of_nat 8))); [|exfalso; lia].
    rewrite nth_overflow by lia. reflexivity.
  - intros i Hi. unfold Zlen in *. rewrite (ba_get_repr b l) by (assumption || lia).
    rewrite Nat2Z.inj_div.
    destruct (Z.ltb_spec i (8 * (Z.of_nat (length l + 7) / Z.of_nat 8))); [exfalso; lia|reflexivity].
  - destruct b; reflexivity.
Qed.
