(** * Properties C04-C08: Rice codes and bit arrays (text/ricecode.py) *)
From Verif Require Import S_rice M_rice L_rice.

(** C04: for widths 1..16 and values >= 1, tolist() returns what was appended,
    len() counts it, and the checking function encode(m, l) succeeds. *)
Theorem C04_roundtrip : forall m l, 1 <= m <= 16 -> Forall (fun v => 1 <= v) l ->
  exists c0 c, rc_new m = Ok c0 /\ rc_append_all c0 l = (c, None) /\
               rc_length c = Zlen l /\ rc_tolist c = Ok l /\ rice_encode m l = Ok c.
Proof. exact rice_roundtrip. Qed.
Print Assumptions C04_roundtrip.
Example C04_roundtrip_ex :
  (do c <- rice_encode 3 [1; 9; 70; 2]; rc_tolist c) = Ok [1; 9; 70; 2].
Proof. vm_compute; reflexivity. Qed.

(** C04: a value below 1 raises ValueError and leaves the code unchanged. *)
Theorem C04_bad_value : forall c v, v < 1 -> rc_append c v = (c, Some ValueError).
Proof. exact rice_append_bad. Qed.
Print Assumptions C04_bad_value.
Example C04_bad_value_ex :
  exists c, rc_new 3 = Ok c /\ rc_append c 0 = (c, Some ValueError).
Proof. eexists; split; vm_compute; reflexivity. Qed.

(** C04: hence after any sequence of appends, good or bad, the good ones are kept. *)
Theorem C04_history : forall m l c0, 1 <= m <= 16 -> rc_new m = Ok c0 ->
  let c := fold_left (fun c v => fst (rc_append c v)) l c0 in
  rc_tolist c = Ok (filter (fun v => 1 <=? v) l) /\
  rc_length c = Zlen (filter (fun v => 1 <=? v) l).
Proof. exact rice_history. Qed.
Print Assumptions C04_history.
Example C04_history_ex :
  (do c0 <- rc_new 2; rc_tolist (fold_left (fun c v => fst (rc_append c v)) [5; 0; 17; -3] c0))
  = Ok [5; 17].
Proof. vm_compute; reflexivity. Qed.

(** C04: encode(m, l) raises ValueError when a value is below 1. *)
Theorem C04_encode_bad_value : forall m l, 1 <= m <= 16 -> ~ Forall (fun v => 1 <= v) l -> rice_encode m l = Raise ValueError.
Proof. exact rice_encode_bad. Qed.
Print Assumptions C04_encode_bad_value.
Example C04_encode_bad_value_ex : ~ Forall (fun v => 1 <= v) [5; 0; 3] /\ rice_encode 3 [5; 0; 3] = Raise ValueError.
Proof. split; [|vm_compute; reflexivity]. intros H. inversion H as [|? ? _ H1]; subst. inversion H1; subst. lia. Qed.

(** C05: the widths that can be constructed are exactly 1..16; 0, which the error
    message advertises, raises ValueError as all others do. *)
Theorem C05_widths : forall m, (exists c, rc_new m = Ok c) <-> 1 <= m <= 16.
Proof. exact rice_new_iff. Qed.
Print Assumptions C05_widths.
Theorem C05_error : forall m, ~ 1 <= m <= 16 -> rc_new m = Raise ValueError.
Proof. exact rice_new_error. Qed.
Print Assumptions C05_error.
Theorem C05_encode_error : forall m l, ~ 1 <= m <= 16 -> rice_encode m l = Raise ValueError.
Proof. exact rice_encode_width. Qed.
Print Assumptions C05_encode_error.
Theorem C05_zero_refuted : rc_new 0 = Raise ValueError.
Proof. exact (rice_new_error 0 ltac:(lia)). Qed.
Print Assumptions C05_zero_refuted.
Example C05_ex : exists c, rc_new 16 = Ok c.
Proof. eexists; vm_compute; reflexivity. Qed.

(** C06: unpickling gives back m and the bits, but an empty list; the list
    survives only if it was empty. *)
Theorem C06_pickle : forall m l c0 c, 1 <= m <= 16 -> Forall (fun v => 1 <= v) l ->
  rc_new m = Ok c0 -> rc_append_all c0 l = (c, None) ->
  exists c', rc_setstate (rc_getstate c) = Ok c' /\
    rc_m c' = rc_m c /\ rc_tostring c' = rc_tostring c /\ rc_bits c' = rc_bits c /\
    rc_length c' = 0 /\ rc_tolist c' = Ok [] /\
    (rc_tolist c' = rc_tolist c <-> l = []).
Proof. exact rice_pickle. Qed.
Print Assumptions C06_pickle.
Example C06_pickle_ex :
  (do c <- rice_encode 3 [7; 8]; do c' <- rc_setstate (rc_getstate c);
   do l <- rc_tolist c; do l' <- rc_tolist c'; Ok (l, l')) = Ok ([7; 8], []).
Proof. vm_compute; reflexivity. Qed.

(** C07: encoding strictly increasing lists of two or more elements succeeds; the
    decoded list has the right length and equals the original exactly when the
    list has constant step. *)
Theorem C07_deltas : forall x l, l <> [] -> Sorted Z.lt (x :: l) ->
  exists e l', encode_deltas (x :: l) = Ok (x, e) /\ decode_deltas x e = Ok l' /\
    length l' = length (x :: l) /\ (l' = x :: l <-> const_step (x :: l)).
Proof. exact deltas_decode. Qed.
Print Assumptions C07_deltas.
Theorem C07_single : forall x, encode_deltas [x] = Ok (x, None) /\ decode_deltas x None = Ok [x].
Proof. exact deltas_single. Qed.
Print Assumptions C07_single.
Theorem C07_not_increasing : forall l, ~ Sorted Z.lt l -> encode_deltas l = Raise ValueError.
Proof. exact deltas_bad. Qed.
Print Assumptions C07_not_increasing.
Theorem C07_roundtrip_refuted : exists l, l <> [] /\ Sorted Z.lt l /\
  exists s e, encode_deltas l = Ok (s, e) /\ decode_deltas s e = Ok [1; 6; 11] /\ l <> [1; 6; 11].
Proof. exact deltas_refuted. Qed.
Print Assumptions C07_roundtrip_refuted.
Example C07_ex : const_step [2; 5; 8] /\
  (do se <- encode_deltas [2; 5; 8]; decode_deltas (fst se) (snd se)) = Ok [2; 5; 8].
Proof.
  split; [|vm_compute; reflexivity]. exists 3. intros [|[|[|?]]] x y Hx Hy; cbn in *; try discriminate;
  injection Hx as <-; injection Hy as <-; reflexivity.
Qed.

(** C08: a bit array behaves as the list of its bits under any sequence of
    appends and in-range assignments. *)
Theorem C08_bitarray : forall os l, bits_run [] os = Some l ->
  exists b, ba_run ba_new os = Ok b /\
    ba_len b = Zlen l /\ ba_tostring b = pack l /\
    (forall i, 0 <= i < Zlen l -> ba_get b i = Ok (bit (nth (Z.to_nat i) l false))) /\
    (forall i, Zlen l <= i < 8 * ((Zlen l + 7) / 8) -> ba_get b i = Ok 0) /\
    (forall i, 8 * ((Zlen l + 7) / 8) <= i -> ba_get b i = Raise IndexError) /\
    ba_setstate (ba_getstate b) = b.
Proof. exact bitarray_correct. Qed.
Print Assumptions C08_bitarray.
Example C08_bitarray_ex :
  bits_run [] [BAppend 1; BAppend 0; BAppend 4; BSet 0 0; BAppend 1] = Some [false; false; true; true] /\
  pack [false; false; true; true] = [12].
Proof. split; vm_compute; reflexivity. Qed.
