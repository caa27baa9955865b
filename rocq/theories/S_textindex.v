(** * Specification of text queries: what it means that a document satisfies a query *)
From Verif Require Export S_text S_score S_textapi S_parser M_textindex SMap Ord.

(** The leaves of a tree that are not below NOT. *)
Fixpoint positive_leaves (n : node) : list node :=
  match n with
  | NAtom _ | NPhrase _ | NGlob _ => [n]
  | NNot _ => []
  | NAnd l | NOr l => flat_map positive_leaves l
  end.

(** A pattern that is expanded by matching: an ordinary prefix before the first wildcard. *)
Definition good_glob (p : str) : Prop :=
  exists prefix c rest, p = prefix ++ c :: rest /\ prefix <> [] /\ plain prefix /\ (c = chr_star \/ c = chr_qm).

Section Satisfies.
  Variable pipeline : list elem.
  (** what counts as an occurrence of a phrase [q] in a document with words [ws] *)
  Variable phrase_in : list str -> list str -> Prop.
  Variable ws : list str. (* the words of a document *)

  (** A word of which the pipeline leaves nothing: a stop word. *)
  Definition stopped (n : node) : Prop :=
    match n with NAtom w => text_words pipeline (TxStr w) = [] | _ => False end.

  Fixpoint satisfies (n : node) : Prop :=
    match n with
    | NAtom w => has_some (text_words pipeline (TxStr w)) ws
    | NPhrase q => text_words pipeline (TxList q) <> [] /\ phrase_in (text_words pipeline (TxList q)) ws
    | NGlob p => exists w, In w ws /\ glob_match p w
    | NNot m => ~ satisfies m
    | NAnd l =>
        (exists x, In x l /\ is_NotNode x = false /\ ~ stopped x) /\
        (fix all l := match l with [] => True | x :: l' => (stopped x \/ satisfies x) /\ all l' end) l
    | NOr l => (fix some l := match l with [] => False | x :: l' => satisfies x \/ some l' end) l
    end.
End Satisfies.

(** What search_phrase takes for an occurrence of a phrase (see C57). *)
Definition phrase_found (lx : lex) (q ws : list str) : Prop :=
  (forall w, In w q -> In w ws) /\
  exists init l l', q = init ++ [l] /\ in_a_row (init ++ [l']) ws /\
    (l' = l \/ exists k, 1 <= k <= 3 /\ get_wid lx l' / 128 ^ k = get_wid lx l).

(** The weight of a list of query words: OkapiIndex and CosineIndex. *)
Section Weights.
  Context {F : Type} {AF : Arith F}.
  Definition okapi_weight (K1 : F) (D : smap Z (list str)) (q : list str) : F :=
    lsum (map (fun w => fmul (idf D w) (fadd f1 K1)) (filter (contains (vocabulary D)) q)).
  Definition cos_weight (D : smap Z (list str)) (q : list str) : F :=
    fsqrt (lsum (map (fun w => fmul (idf D w) (idf D w)) (filter (contains (vocabulary D)) q))).
End Weights.

(** What the search for a leaf [x] of a query finds, with scores: [c w ws] is the score of
    a word [w] for a document with words [ws].  Nothing at all ([None]) for a stop word;
    the documents with one of the words; those with the phrase; those with one of the
    words [q] of the lexicon that match the pattern. *)
Definition leaf_result {F} {AF : Arith F} (pipeline : list elem) (lx : lex) (D : smap Z (list str))
    (c : str -> list str -> F) (x : node) (found : option (smap Z F)) : Prop :=
  let with_some q (m : smap Z F) := forall d : Z, get m d =
    match get D d with
    | Some ws => if existsb (contains ws) q then Some (words_score c q ws) else None
    | None => None
    end in
  match x with
  | NAtom w =>
      let q := text_words pipeline (TxStr w) in
      (q = [] -> found = None) /\ (q <> [] -> exists m, found = Some m /\ with_some q m)
  | NPhrase l =>
      let q := text_words pipeline (TxList l) in
      exists m, found = Some m /\
        forall (d : Z) v, get m d = Some v <->
          exists ws, get D d = Some ws /\ q <> [] /\ phrase_found lx q ws /\ v = words_score c q ws
  | NGlob p =>
      exists q m, NoDup q /\ (forall w, In w q <-> In w (lex_words lx) /\ glob_match p w) /\
        found = Some m /\ with_some q m
  | _ => False
  end.

(** What is needed of [str.lower] with the default pipeline: it makes no line feed, no
    wildcard and no character that is special in regular expressions, and it leaves the
    first wildcard of a word where it is. *)
Record lower_plain (lower : str -> str) : Prop := {
  lower_newline : forall s, ~ In 10 s -> ~ In 10 (lower s);
  lower_no_meta : forall s, plain s -> plain (lower s);
  lower_wildcard : forall a c b, a <> [] -> plain a -> c = chr_star \/ c = chr_qm ->
    exists a' b', lower (a ++ c :: b) = a' ++ c :: b' /\ a' <> [] /\ plain a'
}.
