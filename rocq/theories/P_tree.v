(** * Property C49: query execution (text/parsetree.py)

    An index is given by its three search methods.  [sat found d n] (S_tree.v) says
    that document [d] satisfies the tree [n] when [found x] is the result of searching
    for the leaf [x] ([None] for stop words only); [score found d n] is its score. *)
From Verif Require Import M_tree S_tree S_parser L_query L_tree L_treeex Text Arith SMap Ord.
Open Scope string_scope.
Open Scope list_scope.
Open Scope Z_scope.

(** A small index for the examples, with integer scores; [None] is the word "of". *)
Definition ex_search (w : str) : res (option (smap Z Z)) :=
  Ok (if eqb w (txt "cat") then Some (of_list [(1, 5); (2, 3); (4, 1)])
      else if eqb w (txt "dog") then Some (of_list [(2, 7); (3, 1); (4, 1)])
      else if eqb w (txt "of") then None else Some empty).
Definition ex_phrase (ws : list str) : res (option (smap Z Z)) := Ok (Some (of_list [(4, 9)])).

(** C49: executing a tree whose NOTs are below AND returns exactly the documents that
    satisfy it. *)
Theorem C49_documents : forall F (AF : Arith F) search phrase glob,
  let exec := executeQuery search phrase glob in
  forall n found, executable n -> (forall x, In x (leaves n) -> exec x = Ok (found x)) ->
  exists r, exec n = Ok r /\ (r = None <-> neutral found n) /\
    forall m, r = Some m -> forall d, mem d m = true <-> sat found d n.
Proof. exact @tree_documents. Qed.
Print Assumptions C49_documents.

(** C49: in exact arithmetic the score of a document is the sum described by [score]. *)
Theorem C49_scores : forall F (AF : Arith F) search phrase glob (EF : ExactArith F),
  let exec := executeQuery search phrase glob in
  forall n found, executable n -> (forall x, In x (leaves n) -> exec x = Ok (found x)) ->
  exists r, exec n = Ok r /\ (r = None <-> neutral found n) /\
    forall m, r = Some m -> forall d, get m d = score found d n.
Proof. exact @tree_scores. Qed.
Print Assumptions C49_scores.
Example C49_ex :
  let n := NOr [NAnd [NAtom (txt "cat"); NAtom (txt "of"); NNot (NPhrase [txt "big"; txt "cat"])]; NAtom (txt "dog")] in
  executable n /\
  rmap (option_map elts) (executeQuery ex_search ex_phrase ex_search n) = Ok (Some [(1, 5); (2, 10); (3, 1); (4, 1)]).
Proof.
  cbn zeta. split.
  - apply exec_or. split; [discriminate|]. repeat constructor. apply exec_and. split; [|repeat constructor].
    exists [NAtom (txt "cat"); NAtom (txt "of")], [NPhrase [txt "big"; txt "cat"]]. splits; [reflexivity|discriminate|].
    intros x [<-|[<-|[]]]; reflexivity.
  - vm_compute. reflexivity.
Qed.

(** C49: execution raises only what a search for one of the leaves raises. *)
Theorem C49_raises : forall F (AF : Arith F) search phrase glob,
  let exec := executeQuery search phrase glob in
  forall n e, executable n -> exec n = Raise e -> exists x, In x (leaves n) /\ exec x = Raise e.
Proof. exact @tree_raises. Qed.
Print Assumptions C49_raises.
Example C49_raises_ex :
  executeQuery ex_search ex_phrase (fun w => Raise QueryError) (NOr [NAtom (txt "cat"); NGlob (txt "*")]) = Raise QueryError /\
  executeQuery ex_search ex_phrase ex_search (NNot (NAtom (txt "cat"))) = Raise QueryError.
Proof. split; reflexivity. Qed.

(** C49: a tree with a NOT elsewhere than below AND raises a QueryError, and no other
    tree does when the searches for its leaves do not raise. *)
Theorem C49_misplaced_not : forall F (AF : Arith F) search phrase glob,
  let exec := executeQuery search phrase glob in
  forall n, (forall x, In x (leaves n) -> exists r, exec x = Ok r) ->
  (exec n = Raise QueryError <-> misplaced n) /\ ((exists r, exec n = Ok r) <-> ~ misplaced n).
Proof. exact @tree_misplaced. Qed.
Print Assumptions C49_misplaced_not.
Example C49_misplaced_not_ex :
  let n := NAnd [NAtom (txt "cat"); NNot (NOr [NAtom (txt "dog"); NNot (NAtom (txt "of"))])] in
  misplaced n /\ executeQuery ex_search ex_phrase ex_search n = Raise QueryError /\
  executeQuery ex_search ex_phrase ex_search (NAnd [NNot (NAtom (txt "dog")); NAtom (txt "cat")]) = Ok (Some (of_list [(1, 5)])).
Proof.
  cbn zeta. splits; [|reflexivity|vm_compute; reflexivity].
  eapply mis_and_not; [right; left; reflexivity|]. eapply mis_or; [right; left; reflexivity|]. constructor.
Qed.
