(** * Model of /repo/src/zope/index/text/widcode.py *)
From Verif Require Export Regex.

(** widcode.py:118-129 [_fill] and :75 [_encoding]: the table of all codes for
    0 <= i < 0x4000 (= 16384), given here as a function of the index. *)
Definition enc_table (i : Z) : str :=
  if i <? 128 then [i + 128]
  else [i / 128 + 128; i mod 128].

(** widcode.py:71-72: [w < n and wid2enc[w] or _encode(w)].  Python list indexing
    with a negative index counts from the end; below -n it raises IndexError. *)
Definition enc_lookup (w : Z) : res str :=
  if 0 <=? w then Ok (enc_table w)
  else if -16384 <=? w then Ok (enc_table (w + 16384))
  else Raise IndexError.

(** widcode.py:78-87 [_encode].  0x4000 = 16384, 0x10000000 = 268435456. *)
Definition encode_big (w : Z) : res str :=
  if negb ((16384 <=? w) && (w <? 268435456)) then Raise AssertionError
  else
    let b0 := w / 128 in let c := w mod 128 in
    let a := b0 / 128 in let b := b0 mod 128 in
    let s := [b; c] in
    if a <? 128 then Ok ([a + 128] ++ s)
    else
      let a' := a / 128 in let b' := a mod 128 in
      if negb (a' <? 128) then Raise AssertionError
      else Ok (([a' + 128] ++ [b']) ++ s).

(** widcode.py:71-72, one element of the list comprehension.  The table strings
    are non-empty, hence true, so [and/or] is a conditional. *)
Definition encode1 (w : Z) : res str :=
  if w <? 16384 then enc_lookup w else encode_big w.

(** widcode.py:68-72 [encode] *)
Definition encode (wids : list Z) : res str :=
  do parts <- mapM encode1 wids; Ok (concat parts).

(** widcode.py:90 [_prog = re.compile(r"[\x80-\xFF][\x00-\x7F]*")] *)
Definition prog : regex :=
  RSeq (RChr (fun c => (128 <=? c) && (c <=? 255)))
       (RStar (RChr (fun c => (0 <=? c) && (c <=? 127)))).

(** widcode.py:101,118-128 [_decoding]: the inverse of the table; [get] returns
    None for strings that are not table codes. *)
Definition dec_table (s : str) : option Z :=
  match s with
  | [a] => if (128 <=? a) && (a <=? 255) then Some (a - 128) else None
  | [a; b] =>
      if (129 <=? a) && (a <=? 255) && (0 <=? b) && (b <=? 127)
      then Some ((a - 128) * 128 + b) else None
  | _ => None
  end.

(** widcode.py:104-115 [_decode] *)
Definition decode_big (s : str) : res Z :=
  match s with
  | [a] => if a =? 128 then Ok 0 else Raise AssertionError
  | [a; b; c] =>
      if (Z.land a 128 =? 128) && (Z.land b 128 =? 0) && (Z.land c 128 =? 0)
      then Ok (Z.lor (Z.lor (Z.shiftl (Z.land a 127) 14) (Z.shiftl b 7)) c)
      else Raise AssertionError
  | [a; b; c; d] =>
      if (Z.land a 128 =? 128) && (Z.land b 128 =? 0) && (Z.land c 128 =? 0)
         && (Z.land d 128 =? 0)
      then Ok (Z.lor (Z.lor (Z.lor (Z.shiftl (Z.land a 127) 21) (Z.shiftl b 14))
                            (Z.shiftl c 7)) d)
      else Raise AssertionError
  | _ => Raise AssertionError
  end.

(** widcode.py:98 [get(p) or _decode(p)]: 0 is false, so code 0 goes to [_decode]. *)
Definition decode1 (p : str) : res Z :=
  match dec_table p with
  | Some v => if v =? 0 then decode_big p else Ok v
  | None => decode_big p
  end.

(** widcode.py:93-98 [decode] *)
Definition decode (code : str) : res (list Z) := mapM decode1 (findall prog code).

(** [str.find(sub) >= 0], used by baseindex.py:211. *)
Fixpoint is_prefix (p s : str) : bool :=
  match p, s with
  | [], _ => true
  | _ :: _, [] => false
  | x :: p', y :: s' => (x =? y) && is_prefix p' s'
  end.
Fixpoint str_contains (s sub : str) : bool :=
  is_prefix sub s || match s with [] => false | _ :: s' => str_contains s' sub end.
