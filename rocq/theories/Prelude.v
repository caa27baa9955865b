(** * Prelude: Python-level notions shared by all models.

    Nothing here models a particular function of /repo; it fixes how Python
    exceptions, strings and a few built-ins are represented. *)
From Coq Require Export List ZArith Bool Lia Sorting.Sorted Sorting.Permutation.
From Coq Require Export ZifyBool ZifyNat.
Export ListNotations.
Global Open Scope Z_scope.
Global Open Scope list_scope.

(** Exceptions that the modelled code can raise. [OutOfFuel] is not a Python
    exception: it marks exhaustion of the recursion fuel of a model function and
    theorems prove that it never occurs. *)
Inductive exn :=
| TypeError | KeyError | ValueError | IndexError | AssertionError
| ZeroDivisionError | QueryError | ParseError | NotImplementedError | ReError
| OutOfFuel.

(** Outcome of a Python call. *)
Inductive res (A : Type) :=
| Ok (a : A)
| Raise (e : exn).
Arguments Ok {A} a.
Arguments Raise {A} e.

Definition bind {A B} (m : res A) (f : A -> res B) : res B :=
  match m with Ok a => f a | Raise e => Raise e end.

Definition rmap {A B} (f : A -> B) (m : res A) : res B :=
  match m with Ok a => Ok (f a) | Raise e => Raise e end.

Declare Scope res_scope.
Delimit Scope res_scope with res.
Notation "'do' x <- m ; k" := (bind m (fun x => k))
  (at level 200, x pattern, m at level 100, k at level 200, right associativity) : res_scope.
Open Scope res_scope.

(** Sequential evaluation of a call for every list element, stopping at the
    first exception (a list comprehension over a function that may raise). *)
Fixpoint mapM {A B} (f : A -> res B) (l : list A) : res (list B) :=
  match l with
  | [] => Ok []
  | x :: l' => do y <- f x; do ys <- mapM f l'; Ok (y :: ys)
  end.

(** Python strings are sequences of code points. *)
Definition char := Z.
Definition str := list char.

Lemma bind_ok {A B} (m : res A) (f : A -> res B) b :
  bind m f = Ok b <-> exists a, m = Ok a /\ f a = Ok b.
Proof.
  destruct m as [a|e]; simpl; split.
  - intros H; exists a; split; [reflexivity|exact H].
  - intros [a' [Ha Hf]]; injection Ha as <-; exact Hf.
  - discriminate.
  - intros [a' [Ha _]]; discriminate.
Qed.

Lemma bind_raise {A B} (m : res A) (f : A -> res B) e :
  bind m f = Raise e <-> m = Raise e \/ exists a, m = Ok a /\ f a = Raise e.
Proof.
  destruct m as [a|e']; simpl; split.
  - intros H; right; exists a; split; [reflexivity|exact H].
  - intros [H|[a' [Ha Hf]]]; [discriminate|]. injection Ha as <-; exact Hf.
  - intros H; left; congruence.
  - intros [H|[a' [Ha _]]]; [congruence|discriminate].
Qed.

Lemma mapM_ok_map {A B} (f : A -> res B) (g : A -> B) (l : list A) :
  (forall x, In x l -> f x = Ok (g x)) -> mapM f l = Ok (map g l).
Proof.
  induction l as [|x l IH]; intros H; simpl; [reflexivity|].
  rewrite (H x) by (left; reflexivity). simpl.
  rewrite IH by (intros y Hy; apply H; right; exact Hy).
  reflexivity.
Qed.

Lemma mapM_ok_inv {A B} (f : A -> res B) (l : list A) ys :
  mapM f l = Ok ys -> Forall2 (fun x y => f x = Ok y) l ys.
Proof.
  revert ys; induction l as [|x l IH]; intros ys H; simpl in H.
  - injection H as <-; constructor.
  - apply bind_ok in H as [y [Hy H]]. apply bind_ok in H as [ys' [Hys H]].
    injection H as <-. constructor; [exact Hy|]. apply IH; exact Hys.
Qed.

Definition is_some {A} (o : option A) : bool :=
  match o with Some _ => true | None => false end.

Definition Zlen {A} (l : list A) : Z := Z.of_nat (length l).

Lemma Zlen_nonneg {A} (l : list A) : 0 <= Zlen l.
Proof. unfold Zlen; lia. Qed.

Lemma Zlen_app {A} (l1 l2 : list A) : Zlen (l1 ++ l2) = Zlen l1 + Zlen l2.
Proof. unfold Zlen; rewrite app_length; lia. Qed.

Definition sumZ (l : list Z) : Z := fold_right Z.add 0 l.

Lemma sumZ_app l1 l2 : sumZ (l1 ++ l2) = sumZ l1 + sumZ l2.
Proof. induction l1 as [|x l1 IH]; simpl; lia. Qed.

Lemma sumZ_perm l1 l2 : Permutation l1 l2 -> sumZ l1 = sumZ l2.
Proof. induction 1; simpl; lia. Qed.

(** Decidable membership of an integer in a list. *)
Definition memZ (x : Z) (l : list Z) : bool := existsb (Z.eqb x) l.

Lemma memZ_In x l : memZ x l = true <-> In x l.
Proof.
  unfold memZ. rewrite existsb_exists. split.
  - intros [y [Hy He]]. apply Z.eqb_eq in He; subst; exact Hy.
  - intros H; exists x; split; [exact H|apply Z.eqb_refl].
Qed.

(** Split visible conjunctions only. *)
Ltac splits := repeat match goal with |- _ /\ _ => split end.

Lemma snoc_cases {B} (l : list B) : l = [] \/ exists l' x, l = l' ++ [x].
Proof. destruct l as [|x l] using rev_ind; [left; reflexivity|right; exists l, x; reflexivity]. Qed.
