(** * Arith: abstract arithmetic for weights and scores.

    The code computes scores in Python floats and C doubles and stores some of
    them in IF BTrees, i.e. as C floats.  The models are written over an arbitrary
    type [F] with the operations used; [f32] is the rounding done when a value is
    stored in an IF BTree.  [ExactArith] are the laws of exact arithmetic that
    the theorems about score values assume. *)
From Verif Require Export Prelude.

Class Arith (F : Type) := {
  f0 : F; f1 : F;
  fadd : F -> F -> F; fsub : F -> F -> F; fmul : F -> F -> F; fdiv : F -> F -> F;
  fsqrt : F -> F; fln : F -> F;
  fofZ : Z -> F;
  feqb : F -> F -> bool;
  fleb : F -> F -> bool;
  f32 : F -> F
}.

Class ExactArith (F : Type) `{Arith F} : Prop := {
  fadd_comm : forall x y, fadd x y = fadd y x;
  fadd_assoc : forall x y z, fadd x (fadd y z) = fadd (fadd x y) z;
  fadd_0_l : forall x, fadd f0 x = x;
  fmul_1_r : forall x, fmul x f1 = x;
  fmul_1_l : forall x, fmul f1 x = x;
  feqb_eq : forall x y, feqb x y = true <-> x = y;
  f32_exact : forall x, f32 x = x
}.

(** What reindexing in the cosine index needs: weights that compare equal are the same.
    Weights are quotients of numbers that are at least 1.  (Of floating point numbers in
    general this is not true: 0.0 and -0.0 compare equal.) *)
Class SoundEq (F : Type) `{Arith F} : Prop := {
  feqb_sound : forall x y x' y',
    fleb f1 x = true -> fleb f1 y = true -> fleb f1 x' = true -> fleb f1 y' = true ->
    feqb (fdiv x y) (fdiv x' y') = true -> fdiv x y = fdiv x' y' }.
#[global] Instance ExactSound {F} `{Arith F} `{!ExactArith F} : SoundEq F.
Proof. constructor. intros x y x' y' _ _ _ _ H1. apply feqb_eq. exact H1. Qed.

(** Integers, for computed examples only. *)
#[global] Instance Arith_Z : Arith Z := {|
  f0 := 0; f1 := 1; fadd := Z.add; fsub := Z.sub; fmul := Z.mul; fdiv := Z.div;
  fsqrt := Z.sqrt; fln := Z.log2; fofZ := fun z => z; feqb := Z.eqb; fleb := Z.leb; f32 := fun z => z |}.
#[global] Instance ExactArith_Z : ExactArith Z.
Proof.
  constructor.
  - exact Z.add_comm.
  - exact Z.add_assoc.
  - exact Z.add_0_l.
  - exact Z.mul_1_r.
  - exact Z.mul_1_l.
  - exact Z.eqb_eq.
  - reflexivity.
Qed.

(** A sum of scores. *)
Definition fsum {F} `{Arith F} (l : list F) : F := fold_right fadd f0 l.
(** The same sum computed from left to right, as Python's loops do; the order matters
    when additions round. *)
Definition lsum {F} `{Arith F} (l : list F) : F := fold_left fadd l f0.
Lemma lsum_fsum {F} `{Arith F} `{!ExactArith F} (l : list F) : lsum l = fsum l.
Proof.
  unfold lsum, fsum. assert (G : forall a, fold_left fadd l a = fadd a (fold_right fadd f0 l)).
  { induction l as [|x l IH]; intros a; cbn [fold_left fold_right]; [rewrite fadd_comm, fadd_0_l; reflexivity|].
    rewrite IH, fadd_assoc. reflexivity. }
  rewrite G. apply fadd_0_l.
Qed.

(** Python's float operations that may raise: [x / y], [math.log], [math.sqrt]. *)
Definition py_div {F} `{Arith F} (x y : F) : res F := if feqb y f0 then Raise ZeroDivisionError else Ok (fdiv x y).
Definition py_log {F} `{Arith F} (x : F) : res F := if fleb x f0 then Raise ValueError else Ok (fln x).
Definition py_sqrt {F} `{Arith F} (x : F) : res F := if fleb f0 x then Ok (fsqrt x) else Raise ValueError.

(** What the code needs of the arithmetic in order not to raise: true of real numbers
    and of IEEE floating point alike. *)
Class SafeArith (F : Type) `{Arith F} : Prop := {
  safe_count : forall n, 1 <= n -> fleb (fofZ n) f0 = false /\ fleb f1 (fadd f1 (fln (fofZ n))) = true;
  safe_square : forall x y, fleb f1 x = true -> y = f0 \/ fleb f1 y = true -> fleb f1 (fadd y (fmul x x)) = true;
  safe_sqrt : forall x, fleb f1 x = true -> fleb f0 x = true /\ fleb f1 (fsqrt x) = true;
  safe_zero : fleb f0 f0 = true;
  safe_nonzero : forall x, fleb f1 x = true -> feqb x f0 = false;
  safe_idf : forall n m, 1 <= n -> 0 <= m ->
    feqb (fofZ n) f0 = false /\ fleb (fadd f1 (fdiv (fofZ m) (fofZ n))) f0 = false;
  safe_idf_square : forall y n m, 1 <= n -> 0 <= m -> fleb f0 y = true ->
    let idf := fln (fadd f1 (fdiv (fofZ m) (fofZ n))) in fleb f0 (fadd y (fmul idf idf)) = true;
  safe_norm : forall x, feqb (fmul (if feqb x f0 then f1 else x) f1) f0 = false
}.
#[global] Instance SafeArith_Z : SafeArith Z.
Proof.
  constructor; cbv [f0 f1 fadd fsub fmul fdiv fsqrt fln fofZ feqb fleb Arith_Z]; intros.
  - pose proof (Z.log2_nonneg n). lia.
  - nia.
  - pose proof (Z.sqrt_le_mono 1 x). change (Z.sqrt 1) with 1 in *. lia.
  - reflexivity.
  - lia.
  - pose proof (Z.div_pos m n). lia.
  - pose proof (Z.square_nonneg (Z.log2 (1 + m / n))). cbn zeta. lia.
  - destruct (Z.eqb_spec x 0); lia.
Qed.
