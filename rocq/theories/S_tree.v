(** * Specification of query execution: the boolean meaning of a tree *)
From Verif Require Export M_parser Arith SMap Ord.

(** Some NOT of the tree is not an operand of AND. *)
Inductive misplaced : node -> Prop :=
| mis_not m : misplaced (NNot m)
| mis_and l x : In x l -> is_NotNode x = false -> misplaced x -> misplaced (NAnd l)
| mis_and_not l m : In (NNot m) l -> misplaced m -> misplaced (NAnd l)
| mis_or l x : In x l -> misplaced x -> misplaced (NOr l).

Section Meaning.
  Context {F : Type}.
  (** the result of each leaf: a map of documents to scores, or [None] when the leaf
      consists of stop words only *)
  Variable found : node -> option (smap Z F).
  Variable d : Z. (* a document *)

  Definition neutral (n : node) : Prop :=
    match n with NAtom _ | NPhrase _ | NGlob _ => found n = None | _ => False end.

  (** [d] satisfies the tree *)
  Fixpoint sat (n : node) : Prop :=
    match n with
    | NAtom _ | NPhrase _ | NGlob _ => exists m v, found n = Some m /\ get m d = Some v
    | NNot m => ~ sat m
    | NAnd l =>
        (* some operand is neither NOT nor neutral *)
        (exists x, In x l /\ is_NotNode x = false /\ ~ neutral x) /\
        (* and all operands are satisfied, apart from the neutral ones *)
        (fix all l := match l with [] => True | x :: l' => (neutral x \/ sat x) /\ all l' end) l
    | NOr l => (fix some l := match l with [] => False | x :: l' => sat x \/ some l' end) l
    end.

  Context {AF : Arith F}.
  (** the score of [d]: the sum over the operands of AND that are not NOT, and over the
      operands of OR that [d] satisfies; [None] when [d] does not satisfy the tree *)
  Definition score_leaf (n : node) : option F := match found n with Some m => get m d | None => None end.
  Definition opt_sum (l : list (option F)) : F :=
    fsum (flat_map (fun o => match o with Some v => [v] | None => [] end) l).
  Definition is_some {A} (o : option A) : bool := match o with Some _ => true | None => false end.
  Definition neutralb (n : node) : bool :=
    match n with NAtom _ | NPhrase _ | NGlob _ => negb (is_some (found n)) | _ => false end.
  Fixpoint score (n : node) : option F :=
    match n with
    | NAtom _ | NPhrase _ | NGlob _ => score_leaf n
    | NNot _ => None
    | NAnd l =>
        let pos := (fix go l := match l with
                                | [] => []
                                | NNot _ :: l' => go l'
                                | x :: l' => if neutralb x then go l' else score x :: go l'
                                end) l in
        let neg := (fix go l := match l with [] => [] | NNot m :: l' => score m :: go l' | _ :: l' => go l' end) l in
        if negb (match pos with [] => true | _ => false end) && forallb is_some pos && negb (existsb is_some neg)
        then Some (opt_sum pos) else None
    | NOr l =>
        let alts := (fix go l := match l with [] => [] | x :: l' => score x :: go l' end) l in
        if existsb is_some alts then Some (opt_sum alts) else None
    end.
End Meaning.
