(** * Model of the query parser (/repo/src/zope/index/text/queryparser.py) and of the
      parse tree nodes (text/parsetree.py:31-139)

    [space] is the class \s, [upper] is [str.upper]; [parse_terms] and [is_glob] are
    the lexicon's [parseTerms] and [isGlob]; all are arbitrary.
    Simplification: a lexicon whose [parseTerms] raises is not modelled. *)
From Verif Require Export M_lexicon Sort Regex SMap Ord.

(** parsetree.py:58-139: the node classes with their value *)
Inductive node :=
| NAtom (w : str)
| NPhrase (ws : list str)
| NGlob (w : str)
| NNot (n : node)
| NAnd (l : list node)
| NOr (l : list node).

(** A query term: the value of a leaf, a word or (PhraseNode) a list of words. *)
Inductive qterm := QWord (w : str) | QWords (ws : list str).
(** parsetree.py:48-52, 62-63 and 119-120: [terms()] *)
Fixpoint terms (n : node) : list qterm :=
  match n with
  | NAtom w | NGlob w => [QWord w]
  | NPhrase ws => [QWords ws]
  | NNot _ => []
  | NAnd l | NOr l => flat_map terms l
  end.

Definition is_NotNode (n : node) : bool := match n with NNot _ => true | _ => false end.

(** queryparser.py:66-73: token types *)
Inductive ttype := TyAnd | TyOr | TyNot | TyLParen | TyRParen | TyAtom | TyEOF.
Definition ttype_eqb (a b : ttype) : bool :=
  match a, b with
  | TyAnd, TyAnd | TyOr, TyOr | TyNot, TyNot | TyLParen, TyLParen | TyRParen, TyRParen
  | TyAtom, TyAtom | TyEOF, TyEOF => true
  | _, _ => false
  end.
Notation token := (ttype * str)%type.

Definition kw_AND : str := [65; 78; 68].
Definition kw_OR : str := [79; 82].
Definition kw_NOT : str := [78; 79; 84].
Definition kw_LPAREN : str := [40].
Definition kw_RPAREN : str := [41].
Definition kw_EOF : str := [69; 79; 70].

(** Outcome of a parser method.  The first three are [ParseError] with the messages
    "Token ... required, ... found" (147-151), "a term must have at least one
    positive word" (236-238) and "Query contains only common words" (132-134). *)
Inductive perr := PRequired | PPositive | PCommon | PExn (e : exn).
Inductive pres (A : Type) := POk (a : A) | PErr (e : perr).
Arguments POk {A} a.
Arguments PErr {A} e.
Definition pbind {A B} (m : pres A) (f : A -> pres B) : pres B :=
  match m with POk a => f a | PErr e => PErr e end.
Notation "'pdo' x <- m ; k" := (pbind m (fun x => k))
  (at level 200, x pattern, m at level 100, k at level 200, right associativity).

(** The parser object: the tokens from [_index] on, and [_ignored]. *)
Record pst := mkPst { rest : list token; ignored : list str }.

(** queryparser.py:153-158 [_check] *)
Definition check (ty : ttype) (st : pst) : pres (bool * pst) :=
  match rest st with
  | [] => PErr (PExn IndexError)
  | (ty', _) :: r => if ttype_eqb ty' ty then POk (true, mkPst r (ignored st)) else POk (false, st)
  end.
(** queryparser.py:147-151 [_require] *)
Definition require (ty : ttype) (st : pst) : pres pst :=
  pdo (ok, st) <- check ty st;
  if ok then POk st else match rest st with [] => PErr (PExn IndexError) | _ :: _ => PErr PRequired end.
(** queryparser.py:160-161 [_peek] *)
Definition peek (ty : ttype) (st : pst) : pres bool :=
  match rest st with [] => PErr (PExn IndexError) | (ty', _) :: _ => POk (ttype_eqb ty' ty) end.
(** queryparser.py:163-166 [_get] *)
Definition get_tok (ty : ttype) (st : pst) : pres (str * pst) :=
  match rest st with
  | [] => PErr (PExn IndexError)
  | (_, t) :: _ => pdo st <- require ty st; POk (t, st)
  end.

(** [list(filter(None, L))]: nodes are always true *)
Fixpoint filter_none (L : list (option node)) : list node :=
  match L with [] => [] | Some n :: L' => n :: filter_none L' | None :: L' => filter_none L' end.

(** queryparser.py:173-179 *)
Definition or_result (L : list (option node)) : option node :=
  match filter_none L with [] => None | [n] => Some n | l => Some (NOr l) end.
(** queryparser.py:203-209 *)
Definition and_result (L Nots : list node) : option node :=
  match L with
  | [] => None
  | _ :: _ => match L ++ Nots with [n] => Some n | l => Some (NAnd l) end
  end.

(** queryparser.py:232-235: sort the triples (is a NotNode, index, node); the index
    decides before nodes would be compared. *)
Notation triple := ((bool * Z) * node)%type.
Definition triple_leb (x y : triple) : bool :=
  let '((b1, i1), _) := x in let '((b2, i2), _) := y in
  match b1, b2 with
  | false, true => true
  | true, false => false
  | _, _ => i1 <=? i2
  end.
Fixpoint triples (i : Z) (nodes : list node) : list triple :=
  match nodes with [] => [] | n :: l => ((is_NotNode n, i), n) :: triples (i + 1) l end.
Definition sort_nodes (nodes : list node) : list node := map snd (isort triple_leb (triples 0 nodes)).

Section Parser.
  Variable space : char -> bool.
  Variable upper : str -> str.
  Variable parse_terms : str -> list str.
  Variable is_glob : str -> bool.

  (** queryparser.py:85-97 [_tokenizer_regex] *)
  Definition is_paren (c : char) : bool := (c =? 40) || (c =? 41).
  Definition not_quote (c : char) : bool := negb (c =? 34).
  Definition atom_char (c : char) : bool := negb (is_paren c || space c || (c =? 34)).
  Definition rx_token : regex :=
    RAlt (RChr is_paren)
         (RSeq (ROpt (lit 45))
               (RAlt (RSeq (lit 34) (RSeq (RStar (RChr not_quote)) (lit 34)))
                     (RPlus (RChr atom_char)))).
  Definition tokenize (query : str) : list str := findall rx_token query.
  (** queryparser.py:76-82 and 121-122 *)
  Definition ttype_of (tok : str) : ttype :=
    let u := upper tok in
    if eqb u kw_AND then TyAnd else if eqb u kw_OR then TyOr else if eqb u kw_NOT then TyNot
    else if eqb u kw_LPAREN then TyLParen else if eqb u kw_RPAREN then TyRParen else TyAtom.

  (** queryparser.py:244-258 [_parseAtom] *)
  Definition parseAtom (st : pst) : pres (option node * pst) :=
    pdo (term, st) <- get_tok TyAtom st;
    match parse_terms term with
    | [] => POk (None, mkPst (rest st) (ignored st ++ [term]))
    | w :: ws =>
        let tree := match ws with
                    | _ :: _ => NPhrase (w :: ws)
                    | [] => if is_glob w then NGlob w else NAtom w
                    end in
        match term with
        | [] => PErr (PExn IndexError)
        | c :: _ => POk (Some (if c =? 45 then NNot tree else tree), st)
        end
    end.

  (** queryparser.py:227-228 *)
  Fixpoint atomLoop (fuel : nat) (nodes : list (option node)) (st : pst) : pres (list (option node) * pst) :=
    match fuel with
    | O => PErr (PExn OutOfFuel)
    | S n =>
        pdo b <- peek TyAtom st;
        if b then pdo (a, st) <- parseAtom st; atomLoop n (nodes ++ [a]) st else POk (nodes, st)
    end.
  (** queryparser.py:229-242 *)
  Definition term_result (nodes : list (option node)) : pres (option node) :=
    match filter_none nodes with
    | [] => POk None
    | nodes =>
        match sort_nodes nodes with
        | [] => PErr (PExn IndexError)
        | n :: ns =>
            if is_NotNode n then PErr PPositive
            else match ns with [] => POk (Some n) | _ :: _ => POk (Some (NAnd (n :: ns))) end
        end
    end.

  (** queryparser.py:168-242.  [fuel] bounds the depth of calls and loop iterations. *)
  Fixpoint parseOrExpr (fuel : nat) (st : pst) : pres (option node * pst) :=
    match fuel with
    | O => PErr (PExn OutOfFuel)
    | S n => pdo (a, st) <- parseAndExpr n st; orLoop n [a] st
    end
  (* 171-179 *)
  with orLoop (fuel : nat) (L : list (option node)) (st : pst) : pres (option node * pst) :=
    match fuel with
    | O => PErr (PExn OutOfFuel)
    | S n =>
        pdo (b, st) <- check TyOr st;
        if b then pdo (a, st) <- parseAndExpr n st; orLoop n (L ++ [a]) st
        else POk (or_result L, st)
    end
  (* 181-186 *)
  with parseAndExpr (fuel : nat) (st : pst) : pres (option node * pst) :=
    match fuel with
    | O => PErr (PExn OutOfFuel)
    | S n =>
        pdo (t, st) <- parseTerm n st;
        andLoop n (match t with Some x => [x] | None => [] end) [] st
    end
  (* 187-209 *)
  with andLoop (fuel : nat) (L Nots : list node) (st : pst) : pres (option node * pst) :=
    match fuel with
    | O => PErr (PExn OutOfFuel)
    | S n =>
        pdo (b, st) <- check TyAnd st;
        if b then
          pdo (t, st) <- parseNotExpr n st;
          match t with
          | None => andLoop n L Nots st
          | Some x => if is_NotNode x then andLoop n L (Nots ++ [x]) st else andLoop n (L ++ [x]) Nots st
          end
        else
          pdo (b, st) <- check TyNot st;
          if b then
            pdo (t, st) <- parseTerm n st;
            match t with
            | None => andLoop n L Nots st
            | Some x => andLoop n L (Nots ++ [NNot x]) st
            end
          else POk (and_result L Nots, st)
    end
  (* 211-218 *)
  with parseNotExpr (fuel : nat) (st : pst) : pres (option node * pst) :=
    match fuel with
    | O => PErr (PExn OutOfFuel)
    | S n =>
        pdo (b, st) <- check TyNot st;
        if b then
          pdo (t, st) <- parseTerm n st;
          POk (match t with None => None | Some x => Some (NNot x) end, st)
        else parseTerm n st
    end
  (* 220-242 *)
  with parseTerm (fuel : nat) (st : pst) : pres (option node * pst) :=
    match fuel with
    | O => PErr (PExn OutOfFuel)
    | S n =>
        pdo (b, st) <- check TyLParen st;
        if b then
          pdo (tree, st) <- parseOrExpr n st;
          pdo st <- require TyRParen st;
          POk (tree, st)
        else
          pdo (a, st) <- parseAtom st;
          pdo (nodes, st) <- atomLoop (S (length (rest st))) [a] st;
          pdo t <- term_result nodes;
          POk (t, st)
    end.

  (** queryparser.py:116-143 [parseQuery] and [parseQueryEx]: the tree and the ignored words *)
  Definition start (toks : list str) : pst :=
    mkPst (map (fun t => (ttype_of t, t)) toks ++ [(TyEOF, kw_EOF)]) [].
  Definition parse_tokens (toks : list str) : pres (node * list str) :=
    pdo (tree, st) <- parseOrExpr (6 * length toks + 12) (start toks);
    pdo st <- require TyEOF st;
    match tree with None => PErr PCommon | Some t => POk (t, ignored st) end.
  Definition parseQuery (query : str) : pres (node * list str) := parse_tokens (tokenize query).
End Parser.
