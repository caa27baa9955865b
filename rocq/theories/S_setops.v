(** * Specification of weighted unions and intersections *)
From Verif Require Export Arith SMap.

(** The contributions weight*value of the inputs that contain [k], in order. *)
Definition contribs {F} `{Arith F} (L : list (smap Z F * F)) (k : Z) : list F :=
  concat (map (fun p => match get (fst p) k with Some v => [fmul v (snd p)] | None => [] end) L).

Definition in_some {F} (L : list (smap Z F * F)) (k : Z) : Prop :=
  Exists (fun p => exists v, get (fst p) k = Some v) L.
Definition in_all {F} (L : list (smap Z F * F)) (k : Z) : Prop :=
  Forall (fun p => exists v, get (fst p) k = Some v) L.

(** The inputs that are not None. *)
Definition not_none {A B} (L : list (option A * B)) : list (A * B) :=
  concat (map (fun p => match fst p with Some x => [(x, snd p)] | None => [] end) L).

(** How a union of several inputs is computed when arithmetic rounds: two at a time, the
    results again being inputs, of weight 1.  Weights, products and sums are rounded to
    single precision. *)
Definition scaled {F} `{Arith F} (v w : F) : F := f32 (fmul v (f32 w)).
Inductive plan (F : Type) := Input (m : smap Z F) (w : F) | Both (a b : plan F).
Arguments Input {F} m w.
Arguments Both {F} a b.
Fixpoint inputs {F} (t : plan F) : list (smap Z F * F) :=
  match t with Input m w => [(m, w)] | Both a b => inputs a ++ inputs b end.
Definition weight_of {F} `{Arith F} (t : plan F) : F := match t with Input _ w => w | Both _ _ => f1 end.
Fixpoint value_at {F} `{Arith F} (t : plan F) (k : Z) : option F :=
  match t with
  | Input m _ => get m k
  | Both a b =>
      match value_at a k, value_at b k with
      | Some u, Some v => Some (f32 (fadd (scaled u (weight_of a)) (scaled v (weight_of b))))
      | Some u, None => Some (scaled u (weight_of a))
      | None, Some v => Some (scaled v (weight_of b))
      | None, None => None
      end
  end.
(** An intersection is computed from left to right. *)
Fixpoint running {F} `{Arith F} (k : Z) (acc : option F) (L : list (smap Z F * F)) : option F :=
  match L with
  | [] => acc
  | (m, w) :: L' =>
      running k (match acc, get m k with
                 | Some a, Some v => Some (f32 (fadd (scaled a f1) (scaled v w)))
                 | _, _ => None
                 end) L'
  end.
Definition from_the_left {F} `{Arith F} (k : Z) (L : list (smap Z F * F)) : option F :=
  match L with
  | (x, wx) :: (y, wy) :: rest =>
      running k (match get x k, get y k with
                 | Some u, Some v => Some (f32 (fadd (scaled u wx) (scaled v wy)))
                 | _, _ => None
                 end) rest
  | _ => None
  end.
(** One input is returned as it is, or weighted. *)
Definition alone {F} `{Arith F} (m : smap Z F) (w : F) (k : Z) : option F :=
  match get m k with
  | Some v => Some (if feqb w f1 then v else scaled v w)
  | None => None
  end.
