(** * Property C86: the terms of a query (text/parsetree.py, text/queryparser.py)

    [terms n] is what [terms()] of a parse tree returns: the words, patterns and phrases that
    [apply] passes to [query_weight].  [space], [upper], [pterms] and [glob] are \s,
    [str.upper] and the lexicon's [parseTerms] and [isGlob], all arbitrary.  [wanted_or c]
    are the atoms of a query with the syntax tree [c] (S_parser.v) that are not negated, and
    [term_of] is what an atom stands for (S_terms.v). *)
From Verif Require Import S_terms S_parser M_parser L_terms L_queryex Text SMap Ord.
Open Scope string_scope.
Open Scope list_scope.
Open Scope Z_scope.

(** C86: the terms of a parsed query are its atoms which are not negated and do not consist
    of stop words, in query order, with repetitions. *)
Theorem C86_terms : forall (space : char -> bool) (upper : str -> str) (pterms : str -> list str) (glob : str -> bool), space 45 = false ->
  forall query n ign, parseQuery space upper pterms glob query = POk (n, ign) ->
  exists! c, u_or c = symbols upper (tokenize space query) /\ terms n = flat_map (term_of pterms) (wanted_or c).
Proof. exact query_terms. Qed.
Print Assumptions C86_terms.
Example C86_terms_ex : exists n ign,
  ascii_query (txt "fox -dog fox AND ""brown bear"" NOT (zebra OR lion) OR the ca*") = POk (n, ign) /\
  terms n = [QWord (txt "fox"); QWord (txt "fox"); QWords [txt "brown"; txt "bear"]; QWord (txt "ca*")].
Proof. eexists. eexists. split; vm_compute; reflexivity. Qed.

(** C86: without 'NOT' and hyphens these are all the atoms but the stop words. *)
Theorem C86_plain : forall (space : char -> bool) (upper : str -> str) (pterms : str -> list str) (glob : str -> bool), space 45 = false ->
  forall query n ign, parseQuery space upper pterms glob query = POk (n, ign) ->
  ~ In SNot (symbols upper (tokenize space query)) ->
  (forall a, In (SAtom a) (symbols upper (tokenize space query)) -> negated a = false) ->
  terms n = flat_map (term_of pterms) (atoms (symbols upper (tokenize space query))).
Proof. exact query_terms_plain. Qed.
Print Assumptions C86_plain.
Example C86_plain_ex : let q := txt "the fox OR (bear AND fox)" in
  (exists n ign, ascii_query q = POk (n, ign) /\ terms n = [QWord (txt "fox"); QWord (txt "bear"); QWord (txt "fox")]) /\
  ~ In SNot (symbols ascii_upper (tokenize ascii_space q)) /\
  (forall a, In (SAtom a) (symbols ascii_upper (tokenize ascii_space q)) -> negated a = false).
Proof.
  cbv zeta. split; [eexists; eexists; split; vm_compute; reflexivity|]. split.
  - vm_compute. intros H. repeat (destruct H as [H|H]; [discriminate H|]). exact H.
  - vm_compute. intros a H. repeat (destruct H as [H|H]; [first [discriminate H | injection H as <-; reflexivity]|]). destruct H.
Qed.

(** C86: there is at least one. *)
Theorem C86_some : forall (space : char -> bool) (upper : str -> str) (pterms : str -> list str) (glob : str -> bool), space 45 = false ->
  forall query n ign, parseQuery space upper pterms glob query = POk (n, ign) -> terms n <> [].
Proof. exact query_terms_some. Qed.
Print Assumptions C86_some.
