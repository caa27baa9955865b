(** * Lemmas about the widcode model *)
From Verif Require Import S_common M_widcode.
From Verif Require Import Regex.
Local Ltac Zify.zify_post_hook ::= Z.div_mod_to_equations.

(** Base-128 digits, most significant first, first one marked with +128. *)
Definition code (w : Z) : str :=
  if w <? 128 then [w + 128]
  else if w <? 16384 then [w / 128 + 128; w mod 128]
  else if w <? 2097152 then [w / 16384 + 128; w / 128 mod 128; w mod 128]
  else [w / 2097152 + 128; w / 16384 mod 128; w / 128 mod 128; w mod 128].

Lemma div_div_128 w : w / 128 / 128 = w / 16384.
Proof. rewrite Z.div_div by lia. reflexivity. Qed.
Lemma div_div_128' w : w / 16384 / 128 = w / 2097152.
Proof. rewrite Z.div_div by lia. reflexivity. Qed.

Lemma encode1_code w : wid_ok w -> encode1 w = Ok (code w).
Proof.
  unfold wid_ok, encode1, code, enc_lookup, enc_table, encode_big.
  intros Hw. change (2 ^ 28) with 268435456 in Hw.
  destruct (w <? 16384) eqn:E1.
  - replace (0 <=? w) with true by lia.
    destruct (w <? 128) eqn:E2; reflexivity.
  - replace (16384 <=? w) with true by lia. replace (w <? 268435456) with true by lia.
    replace (w <? 128) with false by lia. cbn [andb negb].
    rewrite div_div_128.
    destruct (w / 16384 <? 128) eqn:E2.
    + replace (w <? 2097152) with true by lia. reflexivity.
    + replace (w <? 2097152) with false by lia. rewrite div_div_128'.
      replace (w / 2097152 <? 128) with true by lia. reflexivity.
Qed.

Lemma encode1_big w : 2 ^ 28 <= w -> encode1 w = Raise AssertionError.
Proof.
  intros Hw. change (2 ^ 28) with 268435456 in Hw. unfold encode1, encode_big.
  replace (w <? 16384) with false by lia. replace (16384 <=? w) with true by lia.
  replace (w <? 268435456) with false by lia. reflexivity.
Qed.

Definition is_lead (c : Z) : Prop := 128 <= c <= 255.
Definition is_cont (c : Z) : Prop := 0 <= c <= 127.

Lemma code_shape w : wid_ok w ->
  exists h t, code w = h :: t /\ is_lead h /\ Forall is_cont t.
Proof.
  unfold wid_ok, code, is_lead, is_cont. intros Hw. change (2 ^ 28) with 268435456 in Hw.
  destruct (w <? 128) eqn:E1; [eexists _, _; split; [reflexivity|]; split; [lia|constructor]|].
  destruct (w <? 16384) eqn:E2;
    [eexists _, _; split; [reflexivity|]; split; [lia|repeat constructor; lia]|].
  destruct (w <? 2097152) eqn:E3;
    (eexists _, _; split; [reflexivity|]; split; [lia|repeat constructor; lia]).
Qed.

Lemma encode_concat ws : Forall wid_ok ws -> encode ws = Ok (concat (map code ws)).
Proof.
  intros H. unfold encode.
  rewrite (mapM_ok_map _ code).
  - reflexivity.
  - intros x Hx. apply encode1_code. rewrite Forall_forall in H; apply H; exact Hx.
Qed.

Lemma encode_error ws :
  Forall (fun w => 0 <= w) ws -> Exists (fun w => 2 ^ 28 <= w) ws ->
  encode ws = Raise AssertionError.
Proof.
  intros Hp He. unfold encode.
  assert (Hm : mapM encode1 ws = Raise AssertionError).
  { induction ws as [|w ws IH]; [inversion He|].
    inversion Hp as [|? ? Hw Hws]; subst. cbn [mapM].
    destruct (Z_le_gt_dec (2 ^ 28) w) as [Hb|Hb].
    - rewrite (encode1_big w Hb). reflexivity.
    - inversion He as [? ? Hx|? ? Hx]; subst; [lia|].
      rewrite encode1_code by (unfold wid_ok; lia). cbn [bind].
      rewrite (IH Hws Hx). reflexivity. }
  rewrite Hm. reflexivity.
Qed.

(** ** Decoding *)
Lemma lor_shiftl a b n : 0 <= n -> 0 <= b < 2 ^ n -> Z.lor (Z.shiftl a n) b = a * 2 ^ n + b.
Proof.
  intros Hn Hb.
  assert (Hl : Z.land (Z.shiftl a n) b = 0).
  { apply Z.bits_inj'. intros m Hm. rewrite Z.land_spec, Z.bits_0.
    destruct (Z_lt_ge_dec m n) as [H|H].
    - rewrite Z.shiftl_spec_low by lia. reflexivity.
    - rewrite <- (Z.mod_small b (2 ^ n)) by lia. rewrite Z.mod_pow2_bits_high by lia.
      apply andb_false_r. }
  rewrite <- Z.lxor_lor by exact Hl. rewrite <- Z.add_nocarry_lxor by exact Hl.
  rewrite Z.shiftl_mul_pow2 by exact Hn. reflexivity.
Qed.

Lemma land_127 x : 0 <= x < 128 -> Z.land (x + 128) 127 = x.
Proof.
  intros H. change 127 with (Z.ones 7). rewrite Z.land_ones by lia.
  change (2 ^ 7) with 128. lia.
Qed.

Lemma land_128_hi x : 0 <= x < 128 -> Z.land (x + 128) 128 = 128.
Proof.
  intros H.
  assert (Hall : forallb (fun i => Z.land (Z.of_nat i + 128) 128 =? 128) (seq 0 128) = true)
    by (vm_compute; reflexivity).
  rewrite forallb_forall in Hall. specialize (Hall (Z.to_nat x)).
  rewrite Z2Nat.id in Hall by lia. apply Z.eqb_eq, Hall. apply in_seq. lia.
Qed.

Lemma land_128_lo x : 0 <= x < 128 -> Z.land x 128 = 0.
Proof.
  intros H.
  assert (Hall : forallb (fun i => Z.land (Z.of_nat i) 128 =? 0) (seq 0 128) = true)
    by (vm_compute; reflexivity).
  rewrite forallb_forall in Hall. specialize (Hall (Z.to_nat x)).
  rewrite Z2Nat.id in Hall by lia. apply Z.eqb_eq, Hall. apply in_seq. lia.
Qed.

Lemma decode1_code w : wid_ok w -> decode1 (code w) = Ok w.
Proof.
  unfold wid_ok. intros Hw. change (2 ^ 28) with 268435456 in Hw.
  unfold decode1, code.
  destruct (w <? 128) eqn:E1.
  { cbn [dec_table]. replace ((128 <=? w + 128) && (w + 128 <=? 255)) with true by lia.
    cbv zeta iota. destruct (w + 128 - 128 =? 0) eqn:E.
    - unfold decode_big. replace (w + 128 =? 128) with true by lia. f_equal; lia.
    - f_equal; lia. }
  destruct (w <? 16384) eqn:E2.
  { cbn [dec_table].
    replace ((129 <=? w / 128 + 128) && (w / 128 + 128 <=? 255) && (0 <=? w mod 128) && (w mod 128 <=? 127))
      with true by lia.
    replace ((w / 128 + 128 - 128) * 128 + w mod 128) with w by lia.
    replace (w =? 0) with false by lia. reflexivity. }
  destruct (w <? 2097152) eqn:E3.
  { cbn [dec_table decode_big].
    rewrite land_128_hi, land_127, !land_128_lo by lia. cbn [Z.eqb Pos.eqb andb].
    rewrite <- Z.lor_assoc, (lor_shiftl (w / 128 mod 128) (w mod 128) 7) by lia.
    rewrite lor_shiftl by lia. f_equal. change (2 ^ 14) with 16384. change (2 ^ 7) with 128.
    rewrite <- ?div_div_128', <- ?div_div_128. lia. }
  { cbn [dec_table decode_big].
    rewrite land_128_hi, land_127, !land_128_lo by lia. cbn [Z.eqb Pos.eqb andb].
    rewrite <- !Z.lor_assoc, (lor_shiftl (w / 128 mod 128) (w mod 128) 7) by lia.
    rewrite (lor_shiftl (w / 16384 mod 128)) by lia.
    rewrite lor_shiftl by lia.
    f_equal. change (2 ^ 21) with 2097152. change (2 ^ 14) with 16384. change (2 ^ 7) with 128.
    rewrite <- ?div_div_128', <- ?div_div_128. lia. }
Qed.

Lemma findall_prog_codes ws : Forall wid_ok ws ->
  findall prog (concat (map code ws)) = map code ws.
Proof.
  unfold prog. induction 1 as [|w ws Hw Hws IH]; [reflexivity|].
  cbn [map concat]. destruct (code_shape w Hw) as [h [t [Hc [Hh Ht]]]]. rewrite Hc.
  cbn [app].
  rewrite findall_chr_star_hit by (unfold is_lead in Hh; lia).
  assert (Ht' : Forall (fun c => (0 <=? c) && (c <=? 127) = true) t).
  { eapply Forall_impl; [|exact Ht]. unfold is_cont; intros; lia. }
  rewrite take_while_app_all, drop_while_app_all by exact Ht'.
  destruct ws as [|w' ws].
  - cbn. rewrite app_nil_r. reflexivity.
  - inversion Hws as [|? ? Hw' Hws']; subst. cbn [map concat] in *.
    destruct (code_shape w' Hw') as [h' [t' [Hc' [Hh' Ht'']]]]. rewrite Hc' in *. cbn [app] in *.
    rewrite take_while_stop, drop_while_stop by (unfold is_lead in Hh'; lia).
    rewrite IH, app_nil_r. reflexivity.
Qed.

Lemma decode_codes ws : Forall wid_ok ws -> decode (concat (map code ws)) = Ok ws.
Proof.
  intros H. unfold decode. rewrite findall_prog_codes by exact H.
  induction H as [|w ws Hw Hws IH]; [reflexivity|].
  cbn [map mapM]. rewrite decode1_code by exact Hw. cbn [bind]. rewrite IH. reflexivity.
Qed.

(** ** Substring search *)
Lemma is_prefix_spec p s : is_prefix p s = true <-> exists b, s = p ++ b.
Proof.
  revert s; induction p as [|x p IH]; intros s; simpl.
  - split; [intros _; exists s; reflexivity|reflexivity].
  - destruct s as [|y s]; [split; [discriminate|intros [b H]; discriminate]|].
    rewrite andb_true_iff, Z.eqb_eq, IH. split.
    + intros [-> [b ->]]; exists b; reflexivity.
    + intros [b H]; injection H as -> ->; split; [reflexivity|exists b; reflexivity].
Qed.

Lemma str_contains_spec s sub : str_contains s sub = true <-> contiguous sub s.
Proof.
  unfold contiguous. induction s as [|c s IH]; simpl.
  - rewrite orb_false_r. rewrite is_prefix_spec. split.
    + intros [b H]; exists [], b; exact H.
    + intros [a [b H]]. symmetry in H. apply app_eq_nil in H as [-> H]. exists b; symmetry; exact H.
  - rewrite orb_true_iff, IH, is_prefix_spec. split.
    + intros [[b H]|[a [b H]]]; [exists [], b; exact H|].
      exists (c :: a), b. rewrite H. reflexivity.
    + intros [[|x a] [b H]].
      * left; exists b; exact H.
      * right. injection H as -> ->. exists a, b; reflexivity.
Qed.

Lemma contiguous_encode ws ds : contiguous ws ds ->
  contiguous (concat (map code ws)) (concat (map code ds)).
Proof.
  intros [a [b ->]]. exists (concat (map code a)), (concat (map code b)).
  rewrite !map_app, !concat_app. reflexivity.
Qed.

(** When is one code a prefix of another? *)
Definition extends (w w' : Z) : Prop :=
  w' = w \/ (w <> 0 /\ exists k, 1 <= k <= 3 /\ w' / 128 ^ k = w).

Lemma code_prefix w w' : wid_ok w -> wid_ok w' ->
  ((exists b, code w' = code w ++ b) <-> extends w w').
Proof.
  unfold wid_ok, extends. intros Hw Hw'. change (2 ^ 28) with 268435456 in *.
  split.
  - intros [b H]. unfold code in H.
    destruct (w' <? 128) eqn:F1; [|destruct (w' <? 16384) eqn:F2; [|destruct (w' <? 2097152) eqn:F3]];
    destruct (w <? 128) eqn:E1; try (destruct (w <? 16384) eqn:E2; [|destruct (w <? 2097152) eqn:E3]);
    cbn [app] in H; try discriminate H; injection H; intros;
    try (left; lia);
    try (right; split; [lia|exists 1; change (128 ^ 1) with 128; lia]);
    try (right; split; [lia|exists 2; change (128 ^ 2) with 16384; lia]);
    try (right; split; [lia|exists 3; change (128 ^ 3) with 2097152; lia]).
  - intros [-> | [Hnz [k [Hk H]]]]; [exists []; rewrite app_nil_r; reflexivity|].
    assert (Hk' : k = 1 \/ k = 2 \/ k = 3) by lia.
    unfold code.
    destruct Hk' as [-> |[-> | ->]].
    + change (128 ^ 1) with 128 in H.
      destruct (w <? 128) eqn:E1; [|destruct (w <? 16384) eqn:E2; [|destruct (w <? 2097152) eqn:E3]].
      * replace (w' <? 128) with false by lia. replace (w' <? 16384) with true by lia.
        exists [w' mod 128]. rewrite H. reflexivity.
      * replace (w' <? 128) with false by lia. replace (w' <? 16384) with false by lia.
        replace (w' <? 2097152) with true by lia.
        exists [w' mod 128]. cbn [app]. rewrite <- div_div_128, H. reflexivity.
      * replace (w' <? 128) with false by lia. replace (w' <? 16384) with false by lia.
        replace (w' <? 2097152) with false by lia.
        exists [w' mod 128]. cbn [app]. rewrite <- div_div_128', <- div_div_128, H, div_div_128. reflexivity.
      * exfalso; lia.
    + change (128 ^ 2) with 16384 in H.
      destruct (w <? 128) eqn:E1; [|destruct (w <? 16384) eqn:E2; [|exfalso; destruct (w <? 2097152) eqn:E3; lia]].
      * replace (w' <? 128) with false by lia. replace (w' <? 16384) with false by lia.
        replace (w' <? 2097152) with true by lia.
        exists [w' / 128 mod 128; w' mod 128]. cbn [app]. rewrite H. reflexivity.
      * replace (w' <? 128) with false by lia. replace (w' <? 16384) with false by lia.
        replace (w' <? 2097152) with false by lia.
        exists [w' / 128 mod 128; w' mod 128]. cbn [app]. rewrite <- div_div_128', H. reflexivity.
    + change (128 ^ 3) with 2097152 in H.
      assert (w < 128) by lia. replace (w <? 128) with true by lia.
      replace (w' <? 128) with false by lia. replace (w' <? 16384) with false by lia.
      replace (w' <? 2097152) with false by lia.
      exists [w' / 16384 mod 128; w' / 128 mod 128; w' mod 128]. cbn [app]. rewrite H. reflexivity.
Qed.

(** Splitting a byte string at lead bytes is unique. *)
Lemma cont_app_lead t1 t2 r1 r2 :
  Forall is_cont t1 -> Forall is_cont t2 ->
  (r1 = [] \/ exists h r, r1 = h :: r /\ is_lead h) ->
  (r2 = [] \/ exists h r, r2 = h :: r /\ is_lead h) ->
  t1 ++ r1 = t2 ++ r2 -> t1 = t2 /\ r1 = r2.
Proof.
  intros H1. revert t2; induction H1 as [|c t1 Hc Ht IH]; intros t2 H2 Hr1 Hr2 He.
  - destruct H2 as [|c2 t2 Hc2 Ht2]; [split; [reflexivity|exact He]|].
    simpl in He. subst r1. destruct Hr1 as [Hr|[h [r [Hr Hl]]]]; [discriminate|].
    injection Hr as -> _. unfold is_cont, is_lead in *; lia.
  - destruct H2 as [|c2 t2 Hc2 Ht2].
    + simpl in He. subst r2. destruct Hr2 as [Hr|[h [r [Hr Hl]]]]; [discriminate|].
      injection Hr as -> _. unfold is_cont, is_lead in *; lia.
    + simpl in He. injection He as -> He. destruct (IH t2 Ht2 Hr1 Hr2 He) as [-> ->]. auto.
Qed.

Lemma codes_start ws : Forall wid_ok ws ->
  concat (map code ws) = [] \/ exists h r, concat (map code ws) = h :: r /\ is_lead h.
Proof.
  intros [|w ws' Hw Hws]; [left; reflexivity|]. right. cbn [map concat].
  destruct (code_shape w Hw) as [h [t [-> [Hh _]]]]. exists h, (t ++ concat (map code ws')). auto.
Qed.

Lemma code_inj w w' : wid_ok w -> wid_ok w' -> code w = code w' -> w = w'.
Proof.
  intros H H' He. pose proof (decode1_code w H) as D. rewrite He, (decode1_code w' H') in D.
  congruence.
Qed.

(** A match at a code boundary. *)
Lemma prefix_match ws ds s :
  Forall wid_ok ws -> Forall wid_ok ds -> ws <> [] ->
  concat (map code ds) = concat (map code ws) ++ s ->
  exists init l w' b, ws = init ++ [l] /\ ds = init ++ w' :: b /\ extends l w'.
Proof.
  intros Hws. revert ds s; induction Hws as [|w ws Hw Hws IH]; intros ds s Hds Hne He; [contradiction|].
  destruct Hds as [|d ds Hd Hds].
  { cbn [map concat] in He. destruct (code_shape w Hw) as [h [t [Hc _]]]. rewrite Hc in He. discriminate. }
  cbn [map concat] in He. rewrite <- app_assoc in He.
  destruct (code_shape w Hw) as [h [t [Hc [Hh Ht]]]].
  destruct (code_shape d Hd) as [h' [t' [Hc' [Hh' Ht']]]].
  destruct ws as [|w2 ws].
  - cbn [map concat app] in He.
    exists [], w, d, ds. split; [reflexivity|]. split; [reflexivity|].
    apply code_prefix; [exact Hw|exact Hd|].
    rewrite Hc, Hc' in *. cbn [app] in He. injection He as -> He.
    (* t' ++ rest = t ++ s; t is a prefix of t' since rest starts with a lead byte *)
    clear Hc Hc' IH Hne. revert t' Ht' He; induction Ht as [|c t Hcc Ht IHt]; intros t' Ht' He.
    + exists t'; reflexivity.
    + destruct Ht' as [|c' t' Hcc' Ht'].
      * exfalso. cbn [app] in He. destruct (codes_start ds Hds) as [Hn|[x [r [Hn Hx]]]]; rewrite Hn in He; [discriminate|].
        injection He as -> _. unfold is_cont, is_lead in *; lia.
      * cbn [app] in He. injection He as -> He. destruct (IHt t' Ht' He) as [b Hb].
        exists b. cbn [app] in *. injection Hb as ->. reflexivity.
  - rewrite Hc, Hc' in He. cbn [app] in He. injection He as -> He.
    apply cont_app_lead in He as [-> He]; [|exact Ht'|exact Ht|apply codes_start; exact Hds|].
    + assert (d = w) by (apply code_inj; congruence). subst d.
      destruct (IH ds s Hds ltac:(discriminate) He) as [init [l [w' [b [Hi [Hds' Hx]]]]]].
      exists (w :: init), l, w', b. rewrite Hi, Hds'. split; [reflexivity|]. split; [reflexivity|exact Hx].
    + right. inversion Hws as [|? ? Hw2 _]; subst. cbn [map concat].
      destruct (code_shape w2 Hw2) as [h2 [t2 [-> [Hh2 _]]]].
      rewrite <- app_assoc. cbn [app]. eexists _, _. split; [reflexivity|exact Hh2].
Qed.

Lemma drop_bytes ds a r :
  Forall wid_ok ds -> concat (map code ds) = a ++ r ->
  (exists h r', r = h :: r' /\ is_lead h) ->
  exists d1 d2, ds = d1 ++ d2 /\ r = concat (map code d2).
Proof.
  intros Hds. revert a; induction Hds as [|d ds Hd Hds IH]; intros a He [h [r' [-> Hh]]].
  - destruct a; discriminate.
  - cbn [map concat] in He. destruct (code_shape d Hd) as [h' [t' [Hc [Hh' Ht]]]]. rewrite Hc in He.
    destruct a as [|x a].
    + exists [], (d :: ds). split; [reflexivity|]. cbn [map concat]. rewrite Hc. symmetry; exact He.
    + cbn [app] in He. injection He as -> He.
      assert (Hp : exists a', a = t' ++ a').
      { clear IH Hc. revert a He; induction Ht as [|c t Hcc Ht IHt]; intros a He; [exists a; reflexivity|].
        destruct a as [|y a].
        - cbn [app] in He. injection He as -> _. unfold is_lead, is_cont in *; lia.
        - cbn [app] in He. injection He as -> He. destruct (IHt a He) as [a' ->]. exists a'; reflexivity. }
      destruct Hp as [a' ->]. rewrite <- app_assoc in He. apply app_inv_head in He.
      destruct (IH a' He) as [d1 [d2 [-> Hr]]]; [exists h, r'; auto|].
      exists (d :: d1), d2. split; [reflexivity|exact Hr].
Qed.

Lemma contains_codes ws ds :
  Forall wid_ok ws -> Forall wid_ok ds -> ws <> [] ->
  contiguous (concat (map code ws)) (concat (map code ds)) ->
  exists a init l w' b, ws = init ++ [l] /\ ds = a ++ init ++ w' :: b /\ extends l w'.
Proof.
  intros Hws Hds Hne [a [b He]].
  destruct (drop_bytes ds a (concat (map code ws) ++ b) Hds He) as [d1 [d2 [-> Hd2]]].
  { destruct Hws as [|w ws Hw Hws]; [contradiction|]. cbn [map concat].
    destruct (code_shape w Hw) as [h [t [-> [Hh _]]]]. cbn [app]. eexists _, _. split; [reflexivity|exact Hh]. }
  apply Forall_app in Hds as [_ Hds2].
  destruct (prefix_match ws d2 b Hws Hds2 Hne (eq_sym Hd2)) as [init [l [w' [b' [-> [-> Hx]]]]]].
  exists d1, init, l, w', b'. auto.
Qed.

Lemma codes_contains a init l w' b :
  wid_ok l -> wid_ok w' -> extends l w' ->
  contiguous (concat (map code (init ++ [l]))) (concat (map code (a ++ init ++ w' :: b))).
Proof.
  intros Hl Hw' Hx. apply (code_prefix l w' Hl Hw') in Hx as [s Hs].
  exists (concat (map code a)), (s ++ concat (map code b)).
  rewrite !map_app, !concat_app. cbn [map concat]. rewrite Hs, app_nil_r.
  rewrite <- !app_assoc. reflexivity.
Qed.

(** ** Statements used by the property file *)
Lemma widcode_roundtrip ws : Forall wid_ok ws ->
  exists c, encode ws = Ok c /\ Forall (fun b => 0 <= b <= 255) c /\ decode c = Ok ws.
Proof.
  intros H. exists (concat (map code ws)). split; [apply encode_concat; exact H|].
  split; [|apply decode_codes; exact H].
  induction H as [|w ws Hw Hws IH]; [constructor|]. cbn [map concat]. apply Forall_app; split; [|exact IH].
  destruct (code_shape w Hw) as [h [t [-> [Hh Ht]]]]. constructor; [unfold is_lead in Hh; lia|].
  eapply Forall_impl; [|exact Ht]. unfold is_cont; intros; lia.
Qed.

Lemma widcode_encode_ok_iff ws : Forall (fun w => 0 <= w) ws ->
  ((exists c, encode ws = Ok c) <-> Forall (fun w => w < 2 ^ 28) ws).
Proof.
  intros Hp. split.
  - intros [c Hc]. apply Forall_forall. intros w Hin.
    destruct (Z_lt_ge_dec w (2 ^ 28)) as [H|H]; [exact H|].
    rewrite encode_error in Hc; [discriminate|exact Hp|]. apply Exists_exists. exists w; split; [exact Hin|lia].
  - intros H. exists (concat (map code ws)). apply encode_concat.
    rewrite Forall_forall in *. intros w Hin. split; [apply Hp; exact Hin|apply H; exact Hin].
Qed.

Lemma widcode_inj ws ws' c : Forall wid_ok ws -> Forall wid_ok ws' ->
  encode ws = Ok c -> encode ws' = Ok c -> ws = ws'.
Proof.
  intros H H' He He'. rewrite encode_concat in He, He' by assumption.
  pose proof (decode_codes ws H). pose proof (decode_codes ws' H'). congruence.
Qed.

Lemma widcode_find_complete ws ds cw cd :
  Forall wid_ok ds -> encode ws = Ok cw -> encode ds = Ok cd ->
  contiguous ws ds -> str_contains cd cw = true.
Proof.
  intros Hds Hw Hd Hc. apply str_contains_spec.
  assert (Hws : Forall wid_ok ws).
  { destruct Hc as [a [b ->]]. apply Forall_app in Hds as [_ Hds]. apply Forall_app in Hds as [Hds _]. exact Hds. }
  rewrite encode_concat in Hw, Hd by assumption. injection Hw as <-. injection Hd as <-.
  apply contiguous_encode; exact Hc.
Qed.

Lemma widcode_find_iff init l ds cw cd :
  Forall wid_ok (init ++ [l]) -> Forall wid_ok ds ->
  encode (init ++ [l]) = Ok cw -> encode ds = Ok cd ->
  (str_contains cd cw = true <->
   exists l', contiguous (init ++ [l']) ds /\
     (l' = l \/ (l <> 0 /\ exists k, 1 <= k <= 3 /\ l' / 128 ^ k = l))).
Proof.
  intros Hws Hds Hw Hd. rewrite encode_concat in Hw, Hd by assumption.
  injection Hw as <-. injection Hd as <-. rewrite str_contains_spec. split.
  - intros Hc. destruct (contains_codes (init ++ [l]) ds Hws Hds) as [a [i [l0 [w' [b [He [-> Hx]]]]]]];
      [destruct init; discriminate|exact Hc|].
    apply app_inj_tail in He as [<- <-]. exists w'. split; [|exact Hx].
    exists a, b. rewrite <- app_assoc. reflexivity.
  - intros [l' [[a [b ->]] Hx]]. rewrite <- app_assoc in *. cbn [app] in *. apply codes_contains.
    + apply Forall_app in Hws as [_ Hws]. inversion Hws; assumption.
    + apply Forall_app in Hds as [_ Hds]. apply Forall_app in Hds as [_ Hds]. inversion Hds; assumption.
    + exact Hx.
Qed.

Lemma widcode_find_exact ws ds cw cd :
  Forall wid_ok ws -> ws <> [] -> encode ws = Ok cw -> encode ds = Ok cd ->
  Forall (fun w => 0 <= w < 128) ds ->
  (str_contains cd cw = true <-> contiguous ws ds).
Proof.
  intros Hws Hne Hw Hd H128.
  assert (Hds : Forall wid_ok ds).
  { eapply Forall_impl; [|exact H128]. unfold wid_ok. cbv beta. intros; lia. }
  split; [|apply widcode_find_complete; assumption].
  destruct (exists_last Hne) as [init [l ->]].
  intros Hc. apply (widcode_find_iff init l ds cw cd Hws Hds Hw Hd) in Hc.
  destruct Hc as [l' [Hc [-> |[Hnz [k [Hk He]]]]]]; [exact Hc|]. exfalso.
  assert (Hl' : 0 <= l' < 128).
  { destruct Hc as [a [b ->]]. apply Forall_app in H128 as [_ H128].
    apply Forall_app in H128 as [H128 _]. apply Forall_app in H128 as [_ H128].
    inversion H128; assumption. }
  apply Hnz. rewrite <- He. apply Z.div_small. split; [lia|].
  assert (128 ^ 1 <= 128 ^ k) by (apply Z.pow_le_mono_r; lia). change (128 ^ 1) with 128 in *. lia.
Qed.

Lemma widcode_find_refuted :
  exists ws ds cw cd, Forall wid_ok ws /\ Forall wid_ok ds /\
    encode ws = Ok cw /\ encode ds = Ok cd /\
    str_contains cd cw = true /\ ~ contiguous ws ds.
Proof.
  exists [2; 1], [1; 2; 133], [130; 129], [129; 130; 129; 5].
  split; [repeat constructor; unfold wid_ok; lia|].
  split; [repeat constructor; unfold wid_ok; lia|].
  split; [vm_compute; reflexivity|]. split; [vm_compute; reflexivity|].
  split; [vm_compute; reflexivity|].
  intros [a [b H]].
  destruct a as [|x [|y [|z a]]]; cbn [app] in H; try discriminate H.
  destruct a; discriminate H.
Qed.

(** Negative numbers, and all that cannot be encoded *)
Lemma encode1_negative w : -16384 <= w < 0 -> encode1 w = encode1 (w + 16384).
Proof.
  intros H. unfold encode1. rewrite (proj2 (Z.ltb_lt w 16384)) by lia. rewrite (proj2 (Z.ltb_lt (w + 16384) 16384)) by lia.
  unfold enc_lookup. rewrite (proj2 (Z.leb_gt 0 w)), (proj2 (Z.leb_le (-16384) w)), (proj2 (Z.leb_le 0 (w + 16384))) by lia. reflexivity.
Qed.
Lemma widcode_negative ws : Forall (fun w => -16384 <= w < 2 ^ 28) ws ->
  exists c, encode ws = Ok c /\ decode c = Ok (map (fun w => if w <? 0 then w + 16384 else w) ws).
Proof.
  intros H. set (ws' := map (fun w => if w <? 0 then w + 16384 else w) ws).
  assert (Hok : Forall wid_ok ws').
  { apply Forall_forall. intros x Hx. apply in_map_iff in Hx as (w & <- & Hw). rewrite Forall_forall in H. specialize (H w Hw). unfold wid_ok. destruct (Z.ltb_spec w 0); lia. }
  assert (E : encode ws = encode ws').
  { unfold encode, ws'. f_equal. clear ws' Hok. induction H as [|w ws Hw Hws IH]; [reflexivity|]. cbn [mapM map]. rewrite IH.
    destruct (Z.ltb_spec w 0); [rewrite (encode1_negative w) by lia|]; reflexivity. }
  destruct (widcode_roundtrip ws' Hok) as (c & E1 & _ & E2). exists c. rewrite E. auto.
Qed.
Lemma widcode_error ws1 w ws2 : Forall (fun w => -16384 <= w < 2 ^ 28) ws1 -> ~ (-16384 <= w < 2 ^ 28) ->
  encode (ws1 ++ w :: ws2) = Raise (if w <? 0 then IndexError else AssertionError).
Proof.
  intros H Hw. unfold encode. assert (E : mapM encode1 (ws1 ++ w :: ws2) = Raise (if w <? 0 then IndexError else AssertionError)); [|rewrite E; reflexivity].
  induction ws1 as [|x ws1 IH]; cbn [app mapM].
  - assert (E : encode1 w = Raise (if w <? 0 then IndexError else AssertionError)); [|rewrite E; reflexivity].
    unfold encode1. destruct (Z.ltb_spec w 0).
    + rewrite (proj2 (Z.ltb_lt w 16384)) by lia. unfold enc_lookup. rewrite (proj2 (Z.leb_gt 0 w)), (proj2 (Z.leb_gt (-16384) w)) by lia. reflexivity.
    + rewrite (proj2 (Z.ltb_ge w 16384)) by lia. unfold encode_big. rewrite (proj2 (Z.ltb_ge w 268435456)) by lia. rewrite andb_false_r. reflexivity.
  - inversion H as [|? ? Hx Hl]; subst. rewrite (IH Hl). destruct (widcode_negative [x]) as (c & Ec & _); [constructor; [exact Hx|constructor]|].
    unfold encode in Ec. cbn [mapM] in Ec. destruct (encode1 x); [reflexivity|discriminate].
Qed.
