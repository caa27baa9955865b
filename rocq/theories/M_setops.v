(** * Model of /repo/src/zope/index/text/setops.py
    Maps are [smap Z F] (IF BTrees and Buckets), weights are in [F]. *)
From Verif Require Export M_nbest Sort Arith SMap.

Section SetOps.
  Context {F : Type} `{AF : Arith F}.
  Local Notation wmap := (smap Z F).

  (** External: the value [O*w] of the C code of BTrees (MERGE_WEIGHT), and [O1*w1+O2*w2]
      (MERGE): weights, products and sums are C floats.  (The sum or product of two floats
      computed in double precision and then rounded is the float sum or product.)
      Simplification: a compiler that fuses the multiplication and the addition rounds
      once less. *)
  Definition weigh (u w : F) : F := f32 (fmul u (f32 w)).
  Definition weigh2 (u wx v wy : F) : F := f32 (fadd (weigh u wx) (weigh v wy)).

  (** External: BTrees [IF.weightedUnion(x, y, wx, wy)] (second component of its
      result). *)
  Definition weightedUnion (x y : wmap) (wx wy : F) : wmap :=
    merge (fun a b => match a, b with
                      | Some u, Some v => Some (weigh2 u wx v wy)
                      | Some u, None => Some (weigh u wx)
                      | None, Some v => Some (weigh v wy)
                      | None, None => None
                      end) x y.

  (** External: BTrees [IF.weightedIntersection(x, y, wx, wy)]. *)
  Definition weightedIntersection (x y : wmap) (wx wy : F) : wmap :=
    merge (fun a b => match a, b with
                      | Some u, Some v => Some (weigh2 u wx v wy)
                      | _, _ => None
                      end) x y.

  (** setops.py:56-66 [_trivial] *)
  Definition trivial (L : list (wmap * F)) : res wmap :=
    match L with
    | [] => Ok empty
    | [(result, weight)] =>
        if negb (feqb weight f1) then Ok (weightedUnion empty result f0 weight) else Ok result
    | _ => Raise AssertionError
    end.

  (** setops.py:24: [[(x, wx) for (x, wx) in L if x is not None]] *)
  Definition drop_none (L : list (option wmap * F)) : list (wmap * F) :=
    concat (map (fun p => match fst p with Some x => [(x, snd p)] | None => [] end) L).

  (** setops.py:30: [L.sort(key=lambda x: len(x[0]))] *)
  Definition by_len (a b : wmap * F) : bool := Zsize (fst a) <=? Zsize (fst b).

  (** setops.py:22-35 [mass_weightedIntersection] *)
  Definition mass_weightedIntersection (L0 : list (option wmap * F)) : res wmap :=
    let L := drop_none L0 in
    if (length L <? 2)%nat then trivial L
    else
      match isort by_len L with
      | (x, wx) :: (y, wy) :: rest =>
          Ok (fold_left (fun result p => weightedIntersection result (fst p) f1 (snd p)) rest
                        (weightedIntersection x y wx wy))
      | _ => Raise ValueError
      end.

  (** setops.py:44-45: [for x, weight in L: merge.add((x, weight), len(x))] *)
  Fixpoint union_fill (q : nbest (wmap * F) Z) (L : list (wmap * F)) : res (nbest (wmap * F) Z) :=
    match L with
    | [] => Ok q
    | (x, weight) :: L' => do q' <- nb_add q (x, weight) (Zsize x); union_fill q' L'
    end.

  (** setops.py:46-51: the merging loop, with fuel. *)
  Fixpoint union_loop (fuel : nat) (q : nbest (wmap * F) Z) : res (nbest (wmap * F) Z) :=
    if nb_len q >? 1 then
      match fuel with
      | O => Raise OutOfFuel
      | S n =>
          do r1 <- nb_pop_smallest q; let '(xw, _, q1) := r1 in
          do r2 <- nb_pop_smallest q1; let '(yw, _, q2) := r2 in
          let z := weightedUnion (fst xw) (fst yw) (snd xw) (snd yw) in
          do q3 <- nb_add q2 (z, f1) (Zsize z);
          union_loop n q3
      end
    else Ok q.

  (** setops.py:38-53 [mass_weightedUnion] *)
  Definition mass_weightedUnion (L : list (wmap * F)) : res wmap :=
    if (length L <? 2)%nat then trivial L
    else
      do q0 <- nb_new (Zlen L);
      do q <- union_fill q0 L;
      do q' <- union_loop (length L) q;
      do r <- nb_pop_smallest q'; let '(rw, _, _) := r in
      Ok (fst rw).
End SetOps.
