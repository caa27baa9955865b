(** * Model of query execution (/repo/src/zope/index/text/parsetree.py)

    The index is given by its three search methods, which may raise; [None] is the
    result of a search for stop words only. *)
From Verif Require Export M_parser M_setops Arith SMap Ord.

Section Execute.
  Context {F : Type} `{AF : Arith F}.
  Local Notation wmap := (smap Z F).
  Variable search : str -> res (option wmap).
  Variable search_phrase : list str -> res (option wmap).
  Variable search_glob : str -> res (option wmap).

  (** parsetree.py:83-84, 89-90 and 110-111: append [(r, 1)] unless [r] is None *)
  Definition add_part (L : list (wmap * F)) (r : option wmap) : list (wmap * F) :=
    match r with Some m => L ++ [(m, f1)] | None => L end.

  (** parsetree.py:91-95 after the loop over the subnodes.
      [IF.difference] is [mdiff]. *)
  Definition and_combine (L Nots : list (wmap * F)) : res (option wmap) :=
    do set <- mass_weightedIntersection (map (fun p => (Some (fst p), snd p)) L);
    match Nots with
    | [] => Ok (Some set)
    | _ :: _ => do notset <- mass_weightedUnion Nots; Ok (Some (mdiff set notset))
    end.

  (** parsetree.py:65-66 (NotNode), 73-95 (AndNode), 102-112 (OrNode), 122-139 (leaves) *)
  Fixpoint executeQuery (n : node) : res (option wmap) :=
    match n with
    | NAtom w => search w
    | NPhrase ws => search_phrase ws
    | NGlob w => search_glob w
    | NNot _ => Raise QueryError
    | NAnd l =>
        do (L, Nots) <-
          (fix loop (l : list node) (L Nots : list (wmap * F)) : res (list (wmap * F) * list (wmap * F)) :=
             match l with
             | [] => Ok (L, Nots)
             | NNot m :: l' => do r <- executeQuery m; loop l' L (add_part Nots r)
             | x :: l' => do r <- executeQuery x; loop l' (add_part L r) Nots
             end) l [] [];
        and_combine L Nots
    | NOr l =>
        do weighted <-
          (fix loop (l : list node) (weighted : list (wmap * F)) : res (list (wmap * F)) :=
             match l with
             | [] => Ok weighted
             | x :: l' => do r <- executeQuery x; loop l' (add_part weighted r)
             end) l [];
        do r <- mass_weightedUnion weighted; Ok (Some r)
    end.
End Execute.
