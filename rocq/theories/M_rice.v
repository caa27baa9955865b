(** * Model of /repo/src/zope/index/text/ricecode.py *)
From Verif Require Export PyList S_rice.

(** ricecode.py:41-46 [BitArray]: [bytes] is an array of unsigned bytes (a list of
    integers here), [nbits], [bitsleft]. *)
Record bitarray := BitArray { ba_bytes : list Z; ba_nbits : Z; ba_bitsleft : Z }.

(** ricecode.py:43-46 [BitArray.__init__] *)
Definition ba_new : bitarray := BitArray [] 0 0.

(** ricecode.py:48-49 [tostring] *)
Definition ba_tostring (b : bitarray) : list Z := ba_bytes b.

(** ricecode.py:51-57 [__getitem__] *)
Definition ba_get (b : bitarray) (i : Z) : res Z :=
  let byte := i / 8 in let offset := i mod 8 in
  let mask := 2 ^ offset in
  do v <- py_get (ba_bytes b) byte;
  if negb (Z.land v mask =? 0) then Ok 1 else Ok 0.

(** ricecode.py:59-65 [__setitem__] *)
Definition ba_set (b : bitarray) (i : Z) (val : Z) : res bitarray :=
  let byte := i / 8 in let offset := i mod 8 in
  let mask := 2 ^ offset in
  do v <- py_get (ba_bytes b) byte;
  let v' := if negb (val =? 0) then Z.lor v mask else Z.land v (Z.lnot mask) in
  do bs <- py_set (ba_bytes b) byte v';
  Ok (BitArray bs (ba_nbits b) (ba_bitsleft b)).

(** ricecode.py:67-68 [__len__] *)
Definition ba_len (b : bitarray) : Z := ba_nbits b.

(** ricecode.py:70-77 [append] *)
Definition ba_append (b : bitarray) (bit : Z) : res bitarray :=
  let b1 := if ba_bitsleft b =? 0
            then BitArray (ba_bytes b ++ [0]) (ba_nbits b) 8 else b in
  do b2 <- ba_set b1 (ba_nbits b1) bit;
  Ok (BitArray (ba_bytes b2) (ba_nbits b2 + 1) (ba_bitsleft b2 - 1)).

(** ricecode.py:79-80 [__getstate__] *)
Definition ba_getstate (b : bitarray) : Z * Z * list Z :=
  (ba_nbits b, ba_bitsleft b, ba_tostring b).

(** ricecode.py:82-86 [__setstate__] *)
Definition ba_setstate (s : Z * Z * list Z) : bitarray :=
  let '(nbits, bitsleft, bs) := s in BitArray bs nbits bitsleft.

(** ricecode.py:89-105 [RiceCode]; [rc_len] is the instance attribute [len],
    which falls back on the class attribute 0. *)
Record rice := Rice { rc_m : Z; rc_lower : Z; rc_mask : Z; rc_bits : bitarray; rc_len : Z }.

(** ricecode.py:102-105 [init]: a negative shift count raises ValueError. *)
Definition rc_init (m : Z) (bits : bitarray) (len : Z) : res rice :=
  if m <? 0 then Raise ValueError
  else if m - 1 <? 0 then Raise ValueError
  else Ok (Rice m (Z.shiftl 1 m - 1) (Z.shiftl 1 (m - 1)) bits len).

(** ricecode.py:95-100 [__init__] *)
Definition rc_new (m : Z) : res rice :=
  if (m <? 0) || (16 <? m) then Raise ValueError
  else rc_init m ba_new 0.

(** ricecode.py:114-115: [for i in range(q): self.bits.append(1)] *)
Fixpoint append_ones (q : nat) (b : bitarray) : res bitarray :=
  match q with
  | O => Ok b
  | S q' => do b' <- ba_append b 1; append_ones q' b'
  end.

(** ricecode.py:120-122: [while mask: append(r & mask); mask >>= 1], with fuel. *)
Fixpoint append_binary (fuel : nat) (r mask : Z) (b : bitarray) : res bitarray :=
  match fuel with
  | O => Raise OutOfFuel
  | S n =>
      if mask =? 0 then Ok b
      else do b' <- ba_append b (Z.land r mask); append_binary n r (Z.shiftr mask 1) b'
  end.

(** ricecode.py:111-123: the part of [append] after the guard.  The fuel is
    m + 1: the mask 1 << (m-1) becomes 0 after m shifts. *)
Definition rc_append_body (c : rice) (val : Z) : res rice :=
  let val := val - 1 in
  let q := Z.shiftr val (rc_m c) in
  do b1 <- append_ones (Z.to_nat q) (rc_bits c);
  do b2 <- ba_append b1 0;
  let r := Z.land val (rc_lower c) in
  do b3 <- append_binary (Z.to_nat (rc_m c) + 1) r (rc_mask c) b2;
  Ok (Rice (rc_m c) (rc_lower c) (rc_mask c) b3 (rc_len c + 1)).

(** ricecode.py:107-123 [append]: new state and raised exception, if any.
    Simplification: were the body to raise, the partial update would be lost
    here; [C04] shows that it never raises. *)
Definition rc_append (c : rice) (val : Z) : rice * option exn :=
  if val <? 1 then (c, Some ValueError)
  else match rc_append_body c val with
       | Ok c' => (c', None)
       | Raise e => (c, Some e)
       end.

(** A sequence of appends, stopping at the first exception. *)
Fixpoint rc_append_all (c : rice) (l : list Z) : rice * option exn :=
  match l with
  | [] => (c, None)
  | v :: l' =>
      match rc_append c v with
      | (c', None) => rc_append_all c' l'
      | (c', Some e) => (c', Some e)
      end
  end.

(** ricecode.py:125-126 [__len__] *)
Definition rc_length (c : rice) : Z := rc_len c.

(** ricecode.py:134-137: the unary loop, returning (unary, i). *)
Fixpoint read_unary (fuel : nat) (b : bitarray) (unary i : Z) : res (Z * Z) :=
  match fuel with
  | O => Raise OutOfFuel
  | S n =>
      do v <- ba_get b i;
      if v =? 1 then read_unary n b (unary + 1) (i + 1) else Ok (unary, i)
  end.

(** ricecode.py:140-143: the binary loop, returning (binary, i). *)
Fixpoint read_binary (k : nat) (b : bitarray) (binary i : Z) : res (Z * Z) :=
  match k with
  | O => Ok (binary, i)
  | S k' =>
      do v <- ba_get b i;
      read_binary k' b (Z.lor (Z.shiftl binary 1) v) (i + 1)
  end.

(** ricecode.py:133-144: [for j in range(self.len)].  The fuel of the unary loop
    is the number of stored bits + 1 (reading past the end raises IndexError). *)
Fixpoint read_items (n : nat) (c : rice) (i : Z) : res (list Z) :=
  match n with
  | O => Ok []
  | S n' =>
      let b := rc_bits c in
      do ui <- read_unary (8 * length (ba_bytes b) + 1) b 0 i;
      let '(unary, i1) := ui in
      do v <- ba_get b i1;
      if negb (v =? 0) then Raise AssertionError
      else
        do bi <- read_binary (Z.to_nat (rc_m c)) b 0 (i1 + 1);
        let '(binary, i2) := bi in
        do rest <- read_items n' c i2;
        Ok ((Z.shiftl unary (rc_m c) + (binary + 1)) :: rest)
  end.

(** ricecode.py:128-145 [tolist] *)
Definition rc_tolist (c : rice) : res (list Z) := read_items (Z.to_nat (rc_len c)) c 0.

(** ricecode.py:147-152 [tostring] *)
Definition rc_tostring (c : rice) : list Z := ba_tostring (rc_bits c).

(** ricecode.py:154-155 [__getstate__]; pickling saves the state of the nested
    BitArray with its own [__getstate__]. *)
Definition rc_getstate (c : rice) : Z * (Z * Z * list Z) := (rc_m c, ba_getstate (rc_bits c)).

(** ricecode.py:157-160 [__setstate__] on a new object: [len] is the class
    attribute, 0. *)
Definition rc_setstate (s : Z * (Z * Z * list Z)) : res rice :=
  let '(m, bits) := s in rc_init m (ba_setstate bits) 0.

(** ricecode.py:163-171 [encode] *)
Definition rice_encode (m : Z) (l : list Z) : res rice :=
  do c <- rc_new m;
  match rc_append_all c l with
  | (c', None) =>
      do l' <- rc_tolist c';
      if list_eq_dec Z.eq_dec l' l then Ok c' else Raise AssertionError
  | (_, Some e) => Raise e
  end.

(** The second component of [encode_deltas]' result: [[]] or a RiceCode. *)
Definition deltas := option rice.

(** ricecode.py:180-181: [for i in range(2, len(l_)): deltas.append(l_[i]-l_[i-1])],
    where [prev] is [l_[i-1]]. *)
Fixpoint append_deltas (c : rice) (prev : Z) (l : list Z) : rice * option exn :=
  match l with
  | [] => (c, None)
  | x :: l' =>
      match rc_append c (x - prev) with
      | (c', None) => append_deltas c' x l'
      | (c', Some e) => (c', Some e)
      end
  end.

(** ricecode.py:174-182 [encode_deltas]: for an empty list [l_[1]] raises IndexError.
    Line 179 is the first step of [append_deltas]. *)
Definition encode_deltas (l : list Z) : res (Z * deltas) :=
  match l with
  | [x] => Ok (x, None)
  | x :: y :: l' =>
      do c <- rc_new 6;
      match append_deltas c x (y :: l') with
      | (c', None) => Ok (x, Some c')
      | (_, Some e) => Raise e
      end
  | [] => do _ <- rc_new 6; Raise IndexError
  end.

(** ricecode.py:190-191: [for i in range(1, len(deltas)): l_.append(l_[i-1] + deltas[i])]:
    [l_] has i elements at that point, so [l_[i-1]] is its last one, [prev]. *)
Fixpoint add_deltas (prev : Z) (ds : list Z) : list Z :=
  match ds with
  | [] => []
  | d :: ds' => (prev + d) :: add_deltas (prev + d) ds'
  end.

(** ricecode.py:185-193 [decode_deltas]; [not enc_deltas] tests for emptiness. *)
Definition decode_deltas (start : Z) (enc : deltas) : res (list Z) :=
  match enc with
  | None => Ok [start]
  | Some c =>
      if rc_length c =? 0 then Ok [start]
      else
        do ds <- rc_tolist c;
        let l := start :: add_deltas start (tl ds) in
        do x <- py_get l (-1);
        do d <- py_get ds (-1);
        Ok (l ++ [x + d])
  end.

(** Histories of client calls on a bit array (not in the source: the quantifier of C08). *)
Definition ba_step (b : bitarray) (o : ba_op) : res bitarray :=
  match o with BAppend v => ba_append b v | BSet i v => ba_set b i v end.
Fixpoint ba_run (b : bitarray) (os : list ba_op) : res bitarray :=
  match os with [] => Ok b | o :: os' => do b' <- ba_step b o; ba_run b' os' end.
