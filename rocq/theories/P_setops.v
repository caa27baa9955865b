(** * Properties C12-C13: weighted unions and intersections (text/setops.py) *)
From Verif Require Import S_setops M_setops L_setops.

(** C12: in exact arithmetic the union maps exactly the keys of the inputs to the
    sum of their weighted values. *)
Theorem C12_union : forall (F : Type) (AF : Arith F) (EF : ExactArith F) (L : list (smap Z F * F)),
  exists r, mass_weightedUnion L = Ok r /\
    forall k, (in_some L k -> get r k = Some (fsum (contribs L k))) /\
              (~ in_some L k -> get r k = None).
Proof. exact @mass_union_spec. Qed.
Print Assumptions C12_union.
Example C12_union_ex :
  let a := of_list [(1, 10); (2, 20)] in let b := of_list [(2, 5); (3, 1)] in
  let c := of_list [(1, 1); (2, 1); (3, 1); (4, 1)] in
  (do r <- mass_weightedUnion [(c, 2); (a, 1); (b, 3)]; Ok (elts r))
  = Ok [(1, 12); (2, 37); (3, 5); (4, 2)].
Proof. vm_compute; reflexivity. Qed.

(** C12: the keys are right in every arithmetic, rounding included. *)
Theorem C12_union_keys : forall (F : Type) (AF : Arith F) (L : list (smap Z F * F)),
  exists r, mass_weightedUnion L = Ok r /\
    forall k, mem k r = existsb (fun p => mem k (fst p)) L.
Proof. exact @mass_union_keys. Qed.
Print Assumptions C12_union_keys.

(** C13: the intersection ignores None and maps exactly the keys present in all
    other inputs to the sum of their weighted values. *)
Theorem C13_intersection : forall (F : Type) (AF : Arith F) (EF : ExactArith F)
    (L0 : list (option (smap Z F) * F)),
  let L := not_none L0 in
  exists r, mass_weightedIntersection L0 = Ok r /\
    forall k, (L <> [] /\ in_all L k -> get r k = Some (fsum (contribs L k))) /\
              (L = [] \/ ~ in_all L k -> get r k = None).
Proof. exact @mass_inter_spec. Qed.
Print Assumptions C13_intersection.
Example C13_intersection_ex :
  let a := of_list [(1, 10); (2, 20)] in let b := of_list [(2, 5); (3, 1)] in
  let c := of_list [(1, 1); (2, 1); (3, 1); (4, 1)] in
  (do r <- mass_weightedIntersection [(Some c, 2); (None, 7); (Some a, 1); (Some b, 3)]; Ok (elts r))
  = Ok [(2, 37)].
Proof. vm_compute; reflexivity. Qed.

Theorem C13_intersection_keys : forall (F : Type) (AF : Arith F) (L0 : list (option (smap Z F) * F)),
  exists r, mass_weightedIntersection L0 = Ok r /\
    forall k, mem k r = negb (match not_none L0 with [] => true | _ => false end)
                        && forallb (fun p => mem k (fst p)) (not_none L0).
Proof. exact @mass_inter_keys. Qed.
Print Assumptions C13_intersection_keys.

(** C12, C13: the values in any arithmetic, whatever its rounding.  The union adds up its
    inputs two at a time, in some order that is the same for all keys (the inputs of the
    plan are those of the union, each used once); the intersection goes through its inputs
    from the smallest to the largest.  Weights, products and sums are rounded to single
    precision. *)
Theorem C12_union_rounded : forall (F : Type) (AF : Arith F) (L : list (smap Z F * F)),
  exists r, mass_weightedUnion L = Ok r /\
    match L with
    | [] => r = empty
    | [(m, w)] => forall k, get r k = alone m w k
    | _ => exists t, Permutation (inputs t) L /\ forall k, get r k = value_at t k
    end.
Proof. exact @union_rounded. Qed.
Print Assumptions C12_union_rounded.
Theorem C13_intersection_rounded : forall (F : Type) (AF : Arith F) (L0 : list (option (smap Z F) * F)),
  exists r, mass_weightedIntersection L0 = Ok r /\
    match not_none L0 with
    | [] => r = empty
    | [(m, w)] => forall k, get r k = alone m w k
    | L => exists P, Permutation P L /\ StronglySorted (fun p q => Zsize (fst p) <= Zsize (fst q)) P /\
                     forall k, get r k = from_the_left k P
    end.
Proof. exact @inter_rounded. Qed.
Print Assumptions C13_intersection_rounded.
(** An arithmetic that rounds down to even integers from 16 on: values depend on the order. *)
Definition even_arith : Arith Z := {|
  f0 := 0; f1 := 1; fadd := Z.add; fsub := Z.sub; fmul := Z.mul; fdiv := Z.div;
  fsqrt := Z.sqrt; fln := Z.log2; fofZ := fun z => z; feqb := Z.eqb; fleb := Z.leb; f32 := fun z => if z <? 16 then z else 2 * (z / 2) |}.
Example C12_union_rounded_ex :
  let a := of_list [(1, 11); (2, 21)] in let b := of_list [(2, 5); (3, 1)] in
  let c := of_list [(1, 1); (2, 1); (3, 1); (4, 1)] in
  (do r <- mass_weightedUnion (AF := even_arith) [(c, 3); (a, 1); (b, 3)]; Ok (elts r))
  = Ok [(1, 14); (2, 36); (3, 6); (4, 3)] /\
  (do r <- mass_weightedUnion (AF := even_arith) [(a, 1)]; Ok (elts r)) = Ok [(1, 11); (2, 21)] /\
  (do r <- mass_weightedUnion (AF := even_arith) [(a, 3)]; Ok (elts r)) = Ok [(1, 32); (2, 62)] /\
  (do r <- mass_weightedIntersection (AF := even_arith) [(Some c, 3); (None, 7); (Some a, 1); (Some b, 3)]; Ok (elts r))
  = Ok [(2, 36)].
Proof. vm_compute; auto. Qed.
