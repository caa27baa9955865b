(** * Properties C01-C03: the word-id codec
    [encode]/[decode] are the model of widcode.py; [str_contains d p] is
    Python's [d.find(p) >= 0].  [wid_ok w] is 0 <= w < 2^28. *)
From Verif Require Import S_common M_widcode L_widcode.

(** C01: decoding an encoded word-id list gives back the list. *)
Theorem C01_roundtrip : forall ws, Forall wid_ok ws ->
  exists c, encode ws = Ok c /\ Forall (fun b => 0 <= b <= 255) c /\ decode c = Ok ws.
Proof. exact widcode_roundtrip. Qed.
Print Assumptions C01_roundtrip.
Example C01_roundtrip_ex :
  Forall wid_ok [0; 127; 128; 16383; 16384; 2097151; 2097152; 268435455] /\
  (do c <- encode [0; 127; 128; 16383; 16384; 2097151; 2097152; 268435455]; decode c)
   = Ok [0; 127; 128; 16383; 16384; 2097151; 2097152; 268435455].
Proof. split; [repeat constructor; unfold wid_ok; lia|vm_compute; reflexivity]. Qed.

(** C01: the precondition is exact: encoding succeeds iff every id is below 2^28. *)
Theorem C01_domain : forall ws, Forall (fun w => 0 <= w) ws ->
  ((exists c, encode ws = Ok c) <-> Forall (fun w => w < 2 ^ 28) ws).
Proof. exact widcode_encode_ok_iff. Qed.
Print Assumptions C01_domain.
Example C01_domain_ex : encode [5; 2 ^ 28] = Raise AssertionError.
Proof. vm_compute; reflexivity. Qed.

(** C01: outside that range.  Numbers from -16384 on are encoded too, but not faithfully:
    they are taken for indexes from the end of a table.  All others raise. *)
Theorem C01_negative : forall ws, Forall (fun w => -16384 <= w < 2 ^ 28) ws ->
  exists c, encode ws = Ok c /\ decode c = Ok (map (fun w => if w <? 0 then w + 16384 else w) ws).
Proof. exact widcode_negative. Qed.
Print Assumptions C01_negative.
Theorem C01_error : forall ws1 w ws2, Forall (fun w => -16384 <= w < 2 ^ 28) ws1 -> ~ (-16384 <= w < 2 ^ 28) ->
  encode (ws1 ++ w :: ws2) = Raise (if w <? 0 then IndexError else AssertionError).
Proof. exact widcode_error. Qed.
Print Assumptions C01_error.
Example C01_negative_ex : (do c <- encode [3; -1; -16384]; decode c) = Ok [3; 16383; 0] /\ encode [3; -16385; 2 ^ 28] = Raise IndexError.
Proof. vm_compute. auto. Qed.

(** C01: distinct lists have distinct codes. *)
Theorem C01_injective : forall ws ws' c, Forall wid_ok ws -> Forall wid_ok ws' ->
  encode ws = Ok c -> encode ws' = Ok c -> ws = ws'.
Proof. exact widcode_inj. Qed.
Print Assumptions C01_injective.
Example C01_injective_ex : encode [1; 0] <> encode [128].
Proof. vm_compute; discriminate. Qed.

(** C02: a contiguous occurrence of a phrase is always found in the codes. *)
Theorem C02_find_complete : forall ws ds cw cd,
  Forall wid_ok ds -> encode ws = Ok cw -> encode ds = Ok cd ->
  contiguous ws ds -> str_contains cd cw = true.
Proof. exact widcode_find_complete. Qed.
Print Assumptions C02_find_complete.
Example C02_find_complete_ex :
  contiguous [300; 7] [7; 300; 7; 20000] /\
  (do cw <- encode [300; 7]; do cd <- encode [7; 300; 7; 20000]; Ok (str_contains cd cw)) = Ok true.
Proof. split; [exists [7], [20000]; reflexivity|vm_compute; reflexivity]. Qed.

(** C03: exactly when the search succeeds: all words but the last match exactly;
    the last may also be matched by an id whose base-128 expansion extends it. *)
Theorem C03_find_exactly : forall init l ds cw cd,
  Forall wid_ok (init ++ [l]) -> Forall wid_ok ds ->
  encode (init ++ [l]) = Ok cw -> encode ds = Ok cd ->
  (str_contains cd cw = true <->
   exists l', contiguous (init ++ [l']) ds /\
     (l' = l \/ (l <> 0 /\ exists k, 1 <= k <= 3 /\ l' / 128 ^ k = l))).
Proof. exact widcode_find_iff. Qed.
Print Assumptions C03_find_exactly.
Example C03_find_exactly_ex :
  (do cw <- encode [2; 1]; do cd <- encode [1; 2; 133]; Ok (str_contains cd cw)) = Ok true /\
  (do cw <- encode [2; 1]; do cd <- encode [1; 2; 266]; Ok (str_contains cd cw)) = Ok false.
Proof. split; vm_compute; reflexivity. Qed.

(** C03: with fewer than 128 distinct ids the search is exact. *)
Theorem C03_find_exact_small : forall ws ds cw cd,
  Forall wid_ok ws -> ws <> [] -> encode ws = Ok cw -> encode ds = Ok cd ->
  Forall (fun w => 0 <= w < 128) ds ->
  (str_contains cd cw = true <-> contiguous ws ds).
Proof. exact widcode_find_exact. Qed.
Print Assumptions C03_find_exact_small.
Example C03_find_exact_small_ex :
  (do cw <- encode [2; 1]; do cd <- encode [1; 2; 1]; Ok (str_contains cd cw)) = Ok true /\
  Forall (fun w => 0 <= w < 128) [1; 2; 1].
Proof. split; [vm_compute; reflexivity|repeat constructor; lia]. Qed.

(** C03: without that restriction a phrase can be reported that is not there. *)
Theorem C03_find_sound_refuted :
  exists ws ds cw cd, Forall wid_ok ws /\ Forall wid_ok ds /\
    encode ws = Ok cw /\ encode ds = Ok cd /\
    str_contains cd cw = true /\ ~ contiguous ws ds.
Proof. exact widcode_find_refuted. Qed.
Print Assumptions C03_find_sound_refuted.
