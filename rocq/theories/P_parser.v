(** * Properties C44-C48: the query parser (text/queryparser.py)

    [space] is the class \s (which does not contain the hyphen), [upper] is
    [str.upper], [terms] and [glob] are the lexicon's [parseTerms] and [isGlob]:
    all of them are arbitrary.  The specification of tokens, of the documented
    grammar and of the reading of a query is S_parser.v. *)
From Verif Require Import S_parser M_parser L_parser L_token L_query L_queryex Text SMap Ord.
Open Scope string_scope.
Open Scope list_scope.
Open Scope Z_scope.

(** C44: the tokenizer cuts the query into parentheses, atoms and dropped text as
    [tokens] says. *)
Theorem C44_tokens : forall (space : char -> bool), space 45 = false ->
  forall query, tokens space query (tokenize space query).
Proof. exact tokens_ok. Qed.
Print Assumptions C44_tokens.
Example C44_tokens_ex :
  tokenize ascii_space (txt "a(b -""c d"" ""e )") = [txt "a"; txt "("; txt "b"; txt "-""c d"""; txt "e"; txt ")"].
Proof. vm_compute; reflexivity. Qed.

(** C44: there is only one such way. *)
Theorem C44_tokens_unique : forall (space : char -> bool), space 45 = false ->
  forall query ts ts', tokens space query ts -> tokens space query ts' -> ts = ts'.
Proof. exact tokens_functional. Qed.
Print Assumptions C44_tokens_unique.

(** C44: every token is a parenthesis, a quoted string with or without hyphen, or a
    non-empty run of characters other than white space, parentheses and quotes. *)
Theorem C44_token_shapes : forall (space : char -> bool), space 45 = false ->
  forall query, Forall (fun t => t = [40] \/ t = [41] \/ quoted t \/ (exists q, quoted q /\ t = 45 :: q) \/
    (t <> [] /\ Forall (fun c => c <> 40 /\ c <> 41 /\ c <> 34 /\ space c = false) t)) (tokenize space query).
Proof. exact token_shapes. Qed.
Print Assumptions C44_token_shapes.

(** C44: only white space and quotes are dropped. *)
Theorem C44_nothing_lost : forall (space : char -> bool), space 45 = false ->
  forall query, let keep c := negb (space c || (c =? 34)) in
  filter keep (concat (tokenize space query)) = filter keep query.
Proof. exact token_text. Qed.
Print Assumptions C44_nothing_lost.

(** C45: parsing any query returns a tree or raises ParseError. *)
Theorem C45_total : forall space upper terms glob, space 45 = false -> forall query,
  match parseQuery space upper terms glob query with
  | POk _ => True
  | PErr PRequired | PErr PPositive | PErr PCommon => True (* the three ParseErrors *)
  | PErr (PExn _) => False                                 (* anything else *)
  end.
Proof. exact query_total. Qed.
Print Assumptions C45_total.
Example C45_total_ex :
  ascii_query (txt "foo AND (bar") = PErr PRequired /\ ascii_query (txt "") = PErr PRequired /\
  ascii_query (txt "-foo") = PErr PPositive /\ ascii_query (txt "the OR and-not") = PErr PCommon /\
  ascii_query (txt "Foo the -bar OR (b* AND NOT ""x y"")") =
    POk (NOr [NAnd [NAtom (txt "foo"); NNot (NAtom (txt "bar"))];
              NAnd [NGlob (txt "b*"); NNot (NPhrase [txt "x"; txt "y"])]], [txt "the"]).
Proof. splits; vm_compute; reflexivity. Qed.

(** C46: a query derivable from the documented grammar is not a syntax error; it
    fails at most for want of a positive word or for having only stop words. *)
Theorem C46_accepts : forall space upper terms glob, space 45 = false -> forall query,
  OrExpr (symbols upper (tokenize space query)) ->
  (exists r, parseQuery space upper terms glob query = POk r) \/
  parseQuery space upper terms glob query = PErr PPositive \/
  parseQuery space upper terms glob query = PErr PCommon.
Proof. exact query_accepts. Qed.
Print Assumptions C46_accepts.
Example C46_accepts_ex : OrExpr (symbols ascii_upper (tokenize ascii_space (txt "a not (b or c) and not d"))).
Proof.
  change (OrExpr ([SAtom (txt "a")] ++ SNot :: ((SLParen :: (([SAtom (txt "b")] ++ []) ++ SOr :: ([SAtom (txt "c")] ++ [])) ++ [SRParen]) ++ []) ++
                  (SAnd :: (SNot :: [SAtom (txt "d")]) ++ []))).
  apply or_one, and_intro; [apply (term_atoms _ [])|]. apply tail_not.
  - apply and_intro; [|constructor]. apply term_paren, or_more; [|apply or_one]; apply and_intro; try constructor; apply (term_atoms _ []).
  - apply tail_and; [apply not_not, (term_atoms _ [])|constructor].
Qed.

(** C46: any other query raises ParseError. *)
Theorem C46_rejects : forall space upper terms glob, space 45 = false -> forall query,
  ~ OrExpr (symbols upper (tokenize space query)) ->
  parseQuery space upper terms glob query = PErr PRequired \/
  parseQuery space upper terms glob query = PErr PPositive.
Proof. exact query_rejects. Qed.
Print Assumptions C46_rejects.

(** C46: when no atom begins with a hyphen, "Token required" is raised exactly for
    the queries that are not derivable. *)
Theorem C46_syntax_error : forall space upper terms glob, space 45 = false -> forall query,
  (forall a, In (SAtom a) (symbols upper (tokenize space query)) -> negated a = false) ->
  (parseQuery space upper terms glob query = PErr PRequired <->
   ~ OrExpr (symbols upper (tokenize space query))).
Proof. exact query_syntax_error. Qed.
Print Assumptions C46_syntax_error.
Example C46_syntax_error_ex :
  ascii_query (txt "a AND OR b") = PErr PRequired /\
  (forall a, In (SAtom a) (symbols ascii_upper (tokenize ascii_space (txt "a AND OR b"))) -> negated a = false).
Proof. split; [vm_compute; reflexivity|]. vm_compute. intros a [H|[H|[H|[H|[]]]]]; try discriminate; injection H as <-; reflexivity. Qed.

(** C46: with hyphens the other message may come first: '-foo )' is not derivable. *)
Theorem C46_syntax_error_refuted : exists query,
  ~ OrExpr (symbols ascii_upper (tokenize ascii_space query)) /\ ascii_query query = PErr PPositive.
Proof. exact syntax_error_refuted. Qed.
Print Assumptions C46_syntax_error_refuted.

(** C46: how a query is read.  A syntax tree [c] spells out the query's structure, 'NOT'
    applying to the one term that follows; [outcome] gives its meaning. *)
Theorem C46_reading : forall space upper terms glob, space 45 = false -> forall query c,
  u_or c = symbols upper (tokenize space query) ->
  match outcome terms glob c with
  | POk n => exists ign, parseQuery space upper terms glob query = POk (n, ign)
  | PErr e => parseQuery space upper terms glob query = PErr e
  end.
Proof. exact query_reading. Qed.
Print Assumptions C46_reading.
Example C46_reading_ex :
  let c := COr (CAnd (CAtoms (txt "x") []) (OpsCons OpNot (CAtoms (txt "y") []) (OpsCons OpAnd (CAtoms (txt "z") []) OpsNil))) OrsNil in
  u_or c = symbols ascii_upper (tokenize ascii_space (txt "x NOT y AND z")) /\
  outcome ascii_terms isGlob c = POk (NAnd [NAtom (txt "x"); NAtom (txt "z"); NNot (NAtom (txt "y"))]).
Proof. split; vm_compute; reflexivity. Qed.

(** C46: every derivable query has exactly one syntax tree. *)
Theorem C46_unambiguous : forall s, OrExpr s -> exists! c, u_or c = s.
Proof. exact grammar_unambiguous. Qed.
Print Assumptions C46_unambiguous.

(** C47: in a parsed tree NOT occurs only below AND, after a positive operand. *)
Theorem C47_executable : forall space upper terms glob, space 45 = false -> forall query n ign,
  parseQuery space upper terms glob query = POk (n, ign) -> executable n.
Proof. exact query_executable. Qed.
Print Assumptions C47_executable.
Example C47_executable_ex : exists n ign,
  ascii_query (txt "x -y NOT (z OR q)") = POk (n, ign) /\ executable n /\ ~ executable (NNot n).
Proof.
  exists (NAnd [NAnd [NAtom (txt "x"); NNot (NAtom (txt "y"))]; NNot (NOr [NAtom (txt "z"); NAtom (txt "q")])]), [].
  assert (E : ascii_query (txt "x -y NOT (z OR q)") =
    POk (NAnd [NAnd [NAtom (txt "x"); NNot (NAtom (txt "y"))]; NNot (NOr [NAtom (txt "z"); NAtom (txt "q")])], [])) by (vm_compute; reflexivity).
  splits; [exact E| |cbn; tauto]. exact (C47_executable _ _ _ _ eq_refl _ _ _ E).
Qed.

(** C48: the ignored terms are, in order, the atoms without words. *)
Theorem C48_ignored : forall space upper terms glob, space 45 = false -> forall query n ign,
  parseQuery space upper terms glob query = POk (n, ign) ->
  ign = filter (fun a => match terms a with [] => true | _ => false end)
               (atoms (symbols upper (tokenize space query))).
Proof. exact query_ignored. Qed.
Print Assumptions C48_ignored.
Example C48_ignored_ex :
  ascii_query (txt "the cat OR a dog") = POk (NOr [NAtom (txt "cat"); NAtom (txt "dog")], [txt "the"; txt "a"]).
Proof. vm_compute; reflexivity. Qed.

(** C48: the leaves of the tree are the nodes of other atoms, each used at most
    once; if nothing is ignored none is missing. *)
Theorem C48_leaves : forall space upper terms glob, space 45 = false -> forall query n ign,
  parseQuery space upper terms glob query = POk (n, ign) ->
  exists dropped,
    Permutation (leaves n ++ dropped)
      (flat_map (fun a => match leaf terms glob a with Some x => [x] | None => [] end)
                (atoms (symbols upper (tokenize space query)))) /\
    (ign = [] -> dropped = []).
Proof. exact query_leaves. Qed.
Print Assumptions C48_leaves.

(** C48: with ignored terms an atom may be lost without being reported: in
    'the NOT foo OR bar' it is 'foo'. *)
Theorem C48_all_reported_refuted : exists query n ign,
  ascii_query query = POk (n, ign) /\
  exists a w, In a (atoms (symbols ascii_upper (tokenize ascii_space query))) /\
    leaf ascii_terms isGlob a = Some w /\ ~ In a ign /\ ~ In w (leaves n).
Proof. exact all_reported_refuted. Qed.
Print Assumptions C48_all_reported_refuted.
