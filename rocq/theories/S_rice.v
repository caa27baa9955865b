(** * Specification vocabulary for bit arrays: packing bits into bytes. *)
From Verif Require Export PyList.

Definition bit (b : bool) : Z := if b then 1 else 0.

(** Byte [j] of a bit list packed little-endian, missing bits being zero. *)
Definition pack_byte (bits : list bool) (j : nat) : Z :=
  sumZ (map (fun i => bit (nth (8 * j + i) bits false) * 2 ^ Z.of_nat i)
            [0; 1; 2; 3; 4; 5; 6; 7]%nat).

(** All bytes: as many as needed, ceil(n/8). *)
Definition pack (bits : list bool) : list Z :=
  map (pack_byte bits) (seq 0 ((length bits + 7) / 8)).

(** Truth value of a Python integer. *)
Definition truthy (v : Z) : bool := negb (v =? 0).

(** Client calls on a bit array: append(v), b[i] = v. *)
Inductive ba_op := BAppend (v : Z) | BSet (i v : Z).

(** Abstract effect on a list of bits; sets must be inside the array. *)
Fixpoint bits_run (l : list bool) (os : list ba_op) : option (list bool) :=
  match os with
  | [] => Some l
  | BAppend v :: os' => bits_run (l ++ [truthy v]) os'
  | BSet i v :: os' =>
      if (0 <=? i) && (i <? Zlen l) then bits_run (set_nth (Z.to_nat i) (truthy v) l) os' else None
  end.

(** All consecutive differences are equal. *)
Definition const_step (l : list Z) : Prop :=
  exists d, forall i x y, nth_error l i = Some x -> nth_error l (S i) = Some y -> y - x = d.
