(** * PyList: Python sequence indexing and list.insert/pop on Gallina lists. *)
From Verif Require Export Prelude.

(** Python [l[i]]: negative indices count from the end, else IndexError. *)
Definition py_index {A} (l : list A) (i : Z) : option nat :=
  let n := Zlen l in
  if (0 <=? i) && (i <? n) then Some (Z.to_nat i)
  else if (- n <=? i) && (i <? 0) then Some (Z.to_nat (i + n))
  else None.

Definition py_get {A} (l : list A) (i : Z) : res A :=
  match py_index l i with
  | Some k => match nth_error l k with Some x => Ok x | None => Raise IndexError end
  | None => Raise IndexError
  end.

Fixpoint set_nth {A} (k : nat) (x : A) (l : list A) : list A :=
  match l, k with
  | [], _ => []
  | _ :: l', O => x :: l'
  | y :: l', S k' => y :: set_nth k' x l'
  end.

(** Python [l[i] = x] *)
Definition py_set {A} (l : list A) (i : Z) (x : A) : res (list A) :=
  match py_index l i with
  | Some k => Ok (set_nth k x l)
  | None => Raise IndexError
  end.

(** [l.insert(i, x)] for 0 <= i <= len(l) *)
Definition insert_at {A} (k : nat) (x : A) (l : list A) : list A :=
  firstn k l ++ x :: skipn k l.

Lemma py_get_nat {A} (l : list A) i x :
  0 <= i -> nth_error l (Z.to_nat i) = Some x -> py_get l i = Ok x.
Proof.
  intros Hi Hn. unfold py_get, py_index, Zlen.
  assert (Hlt : (Z.to_nat i < length l)%nat) by (apply nth_error_Some; congruence).
  replace ((0 <=? i) && (i <? Z.of_nat (length l))) with true by lia. rewrite Hn. reflexivity.
Qed.

Lemma py_get_out {A} (l : list A) i : Zlen l <= i -> py_get l i = Raise IndexError.
Proof.
  intros Hi. unfold py_get, py_index, Zlen in *.
  replace ((0 <=? i) && (i <? Z.of_nat (length l))) with false by lia.
  replace ((- Z.of_nat (length l) <=? i) && (i <? 0)) with false by lia. reflexivity.
Qed.

Lemma py_get_last {A} (l : list A) x : py_get (l ++ [x]) (-1) = Ok x.
Proof.
  unfold py_get, py_index, Zlen. rewrite app_length. cbn [length].
  replace ((0 <=? -1) && (-1 <? Z.of_nat (length l + 1))) with false by reflexivity.
  replace ((- Z.of_nat (length l + 1) <=? -1) && (-1 <? 0)) with true by lia.
  replace (Z.to_nat (-1 + Z.of_nat (length l + 1))) with (length l) by lia.
  rewrite nth_error_app2 by lia. rewrite Nat.sub_diag. reflexivity.
Qed.

Lemma py_set_nat {A} (l : list A) i x :
  0 <= i < Zlen l -> py_set l i x = Ok (set_nth (Z.to_nat i) x l).
Proof.
  intros Hi. unfold py_set, py_index. replace ((0 <=? i) && (i <? Zlen l)) with true by lia.
  reflexivity.
Qed.

Lemma set_nth_length {A} k (x : A) l : length (set_nth k x l) = length l.
Proof. revert k; induction l as [|y l IH]; intros [|k]; simpl; auto. Qed.

Lemma nth_error_set_nth {A} k (x : A) l j :
  nth_error (set_nth k x l) j =
  if (j =? k)%nat then match nth_error l j with Some _ => Some x | None => None end
  else nth_error l j.
Proof.
  revert k j; induction l as [|y l IH]; intros k j.
  - simpl. destruct j, k; simpl; try reflexivity. destruct (j =? k)%nat; reflexivity.
  - destruct k, j; simpl; try reflexivity. apply IH.
Qed.

Lemma nth_error_ext' {A} (l1 l2 : list A) :
  (forall i, nth_error l1 i = nth_error l2 i) -> l1 = l2.
Proof.
  revert l2; induction l1 as [|x l1 IH]; intros [|y l2] H.
  - reflexivity.
  - specialize (H O); discriminate.
  - specialize (H O); discriminate.
  - pose proof (H O) as H0. simpl in H0. injection H0 as ->. f_equal. apply IH.
    intros i. exact (H (S i)).
Qed.
