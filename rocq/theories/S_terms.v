(** * Specification of the terms of a query *)
From Verif Require Export S_parser M_parser SMap Ord.

(** The atoms of a query that are to be found, in query order: those that are not written
    with a hyphen and not part of what follows a 'NOT'. *)
Fixpoint wanted_term (t : cterm) : list str :=
  match t with
  | CParen o => wanted_or o
  | CAtoms a l => filter (fun a => negb (negated a)) (a :: l)
  end
with wanted_and (a : cand) : list str := match a with CAnd t l => wanted_term t ++ wanted_ops l end
with wanted_ops (l : cops) : list str :=
  match l with
  | OpsNil => []
  | OpsCons OpAnd t l => wanted_term t ++ wanted_ops l
  | OpsCons _ _ l => wanted_ops l
  end
with wanted_or (o : cor) : list str := match o with COr a l => wanted_and a ++ wanted_ors l end
with wanted_ors (l : cors) : list str :=
  match l with OrsNil => [] | OrsCons a l => wanted_and a ++ wanted_ors l end.

(** What an atom stands for: nothing (stop words), a word or pattern, or several words. *)
Definition term_of (parse_terms : str -> list str) (a : str) : list qterm :=
  match parse_terms a with [] => [] | [w] => [QWord w] | ws => [QWords ws] end.
