(** * Specification of the query language *)
From Verif Require Import Txt.
From Verif Require Export M_parser SMap Ord.

(** ** Lexical structure *)
Section Lexical.
  Variable space : char -> bool.
  Definition quoted (s : str) : Prop := exists body, s = 34 :: body ++ [34] /\ ~ In 34 body.
  Definition ordinary (c : char) : Prop := c <> 40 /\ c <> 41 /\ c <> 34 /\ space c = false.

  (** [tokens s ts]: [ts] are the tokens of the text [s]. *)
  Inductive tokens : str -> list str -> Prop :=
  | tok_nil : tokens [] []
  | tok_paren c s ts : c = 40 \/ c = 41 -> tokens s ts -> tokens (c :: s) ([c] :: ts)
  | tok_quoted q s ts : quoted q -> tokens s ts -> tokens (q ++ s) (q :: ts)
  | tok_not_quoted q s ts : quoted q -> tokens s ts -> tokens (45 :: q ++ s) ((45 :: q) :: ts)
  | tok_run w s ts : w <> [] -> Forall ordinary w ->
      (forall c s', s = c :: s' -> ~ ordinary c) ->           (* as long as possible *)
      (w = [45] -> forall q s', quoted q -> s <> q ++ s') ->  (* not the hyphen of a quoted string *)
      tokens s ts -> tokens (w ++ s) (w :: ts)
  | tok_space c s ts : space c = true -> c <> 40 -> c <> 41 -> c <> 34 -> tokens s ts -> tokens (c :: s) ts
  | tok_lone_quote s ts : ~ In 34 s -> tokens s ts -> tokens (34 :: s) ts.
End Lexical.

(** ** The documented grammar (queryparser.py:18-22) *)
Inductive sym := SAnd | SOr | SNot | SLParen | SRParen | SAtom (a : str) | SEOF.

(** The symbols of a query's tokens: the operators are written in any case. *)
Definition operators : list str := map txt ["AND"; "OR"; "NOT"; "("; ")"]%string.
Definition symbol (upper : str -> str) (t : str) : sym :=
  let u := upper t in
  if eqb u (txt "AND") then SAnd else if eqb u (txt "OR") then SOr else if eqb u (txt "NOT") then SNot
  else if eqb u (txt "(") then SLParen else if eqb u (txt ")") then SRParen else SAtom t.
Definition symbols (upper : str -> str) (toks : list str) : list sym := map (symbol upper) toks.

(** OrExpr = AndExpr ('OR' AndExpr)*
    AndExpr = Term ('AND' NotExpr | 'NOT' AndExpr)*
    NotExpr = ['NOT'] Term
    Term = '(' OrExpr ')' | ATOM+ *)
Inductive OrExpr : list sym -> Prop :=
| or_one a : AndExpr a -> OrExpr a
| or_more a b : AndExpr a -> OrExpr b -> OrExpr (a ++ SOr :: b)
with AndExpr : list sym -> Prop :=
| and_intro t l : Term t -> AndTail l -> AndExpr (t ++ l)
with AndTail : list sym -> Prop :=
| tail_nil : AndTail []
| tail_and a l : NotExpr a -> AndTail l -> AndTail (SAnd :: a ++ l)
| tail_not a l : AndExpr a -> AndTail l -> AndTail (SNot :: a ++ l)
with NotExpr : list sym -> Prop :=
| not_not t : Term t -> NotExpr (SNot :: t)
| not_term t : Term t -> NotExpr t
with Term : list sym -> Prop :=
| term_paren o : OrExpr o -> Term (SLParen :: o ++ [SRParen])
| term_atoms a l : Term (SAtom a :: map SAtom l).

(** ** Concrete syntax trees: how a query is to be read.  'NOT' applies to one term. *)
Inductive cop := OpAnd | OpAndNot | OpNot.
Inductive cterm := CParen (o : cor) | CAtoms (a : str) (l : list str)
with cand := CAnd (t : cterm) (l : cops)
with cops := OpsNil | OpsCons (op : cop) (t : cterm) (l : cops)
with cor := COr (a : cand) (l : cors)
with cors := OrsNil | OrsCons (a : cand) (l : cors).

Definition op_syms (op : cop) : list sym :=
  match op with OpAnd => [SAnd] | OpAndNot => [SAnd; SNot] | OpNot => [SNot] end.
Fixpoint u_term (t : cterm) : list sym :=
  match t with
  | CParen o => SLParen :: u_or o ++ [SRParen]
  | CAtoms a l => SAtom a :: map SAtom l
  end
with u_and (a : cand) : list sym := match a with CAnd t l => u_term t ++ u_ops l end
with u_ops (l : cops) : list sym :=
  match l with OpsNil => [] | OpsCons op t l => op_syms op ++ u_term t ++ u_ops l end
with u_or (o : cor) : list sym := match o with COr a l => u_and a ++ u_ors l end
with u_ors (l : cors) : list sym :=
  match l with OrsNil => [] | OrsCons a l => SOr :: u_and a ++ u_ors l end.

Section Meaning.
  Variable parse_terms : str -> list str.
  Variable is_glob : str -> bool.

  (** The node of an atom; [None] for an atom of stop words only. *)
  Definition negated (a : str) : bool := match a with c :: _ => c =? 45 | [] => false end.
  Definition leaf (a : str) : option node :=
    match parse_terms a with
    | [] => None
    | [w] => Some (if is_glob w then NGlob w else NAtom w)
    | ws => Some (NPhrase ws)
    end.
  Definition leaves_of (f : str -> bool) (l : list str) : list node :=
    flat_map (fun a => if f a then match leaf a with Some n => [n] | None => [] end else []) l.

  (** Join the nodes that remain: none, one, or several. *)
  Definition join_and (l : list node) : option node :=
    match l with [] => None | [n] => Some n | _ => Some (NAnd l) end.
  Definition join_or (l : list node) : option node :=
    match l with [] => None | [n] => Some n | _ => Some (NOr l) end.
  Definition opt_list (o : option node) : list node := match o with Some n => [n] | None => [] end.

  (** A tree, nothing (only stop words), or the error "no positive word". *)
  Inductive meaning := MTree (n : option node) | MPositive.
  Definition mbind (m : meaning) (f : option node -> meaning) : meaning :=
    match m with MTree n => f n | MPositive => MPositive end.

  Fixpoint m_term (t : cterm) : meaning :=
    match t with
    | CParen o => m_or o
    | CAtoms a l =>
        let pos := leaves_of (fun a => negb (negated a)) (a :: l) in
        let neg := leaves_of negated (a :: l) in
        match pos, neg with
        | [], _ :: _ => MPositive
        | _, _ => MTree (join_and (pos ++ map NNot neg))
        end
    end
  with m_and (a : cand) : meaning :=
    match a with CAnd t l => mbind (m_term t) (fun n => m_ops (opt_list n) [] l) end
  (* positive parts so far, negated parts so far *)
  with m_ops (pos neg : list node) (l : cops) : meaning :=
    match l with
    | OpsNil => MTree (match pos with [] => None | _ => join_and (pos ++ map NNot neg) end)
    | OpsCons op t l =>
        mbind (m_term t) (fun n =>
          match op with
          | OpAnd => m_ops (pos ++ opt_list n) neg l
          | OpAndNot | OpNot => m_ops pos (neg ++ opt_list n) l
          end)
    end
  with m_or (o : cor) : meaning :=
    match o with COr a l => mbind (m_and a) (fun n => m_ors (opt_list n) l) end
  with m_ors (alts : list node) (l : cors) : meaning :=
    match l with
    | OrsNil => MTree (join_or alts)
    | OrsCons a l => mbind (m_and a) (fun n => m_ors (alts ++ opt_list n) l)
    end.

  (** The outcome of parsing a query. *)
  Definition outcome (o : cor) : pres node :=
    match m_or o with MPositive => PErr PPositive | MTree None => PErr PCommon | MTree (Some n) => POk n end.

  (** ** Trees *)
  (** A tree that can be executed: NOT only directly below AND, after at least one
      node that is not NOT. *)
  Fixpoint executable (n : node) : Prop :=
    match n with
    | NAtom _ | NPhrase _ | NGlob _ => True
    | NNot _ => False
    | NAnd l =>
        (exists pos neg, l = pos ++ map NNot neg /\ pos <> [] /\ (forall x, In x pos -> is_NotNode x = false)) /\
        (fix all l := match l with
                      | [] => True
                      | (NNot m) :: l' => executable m /\ all l'
                      | m :: l' => executable m /\ all l'
                      end) l
    | NOr l => l <> [] /\ (fix all l := match l with [] => True | m :: l' => executable m /\ all l' end) l
    end.

  (** The leaves of a tree, those below NOT included. *)
  Fixpoint leaves (n : node) : list node :=
    match n with
    | NAtom _ | NPhrase _ | NGlob _ => [n]
    | NNot m => leaves m
    | NAnd l | NOr l => flat_map leaves l
    end.
End Meaning.

(** The atoms of a query, in order. *)
Definition atoms (l : list sym) : list str := flat_map (fun s => match s with SAtom a => [a] | _ => [] end) l.
