(** * Specification for C81: the size of a query

    How many words a query looks up, counted with repetitions; a pattern may stand for every
    word of the lexicon. *)
From Verif Require Import M_lexicon S_lexicon M_parser S_parser SMap Ord.

Definition leaf_size (pipeline : list elem) (lx : lex) (x : node) : Z :=
  match x with
  | NAtom w => Zlen (text_words pipeline (TxStr w))
  | NPhrase ws => Zlen (text_words pipeline (TxList ws))
  | NGlob p => Zlen (text_words pipeline (TxStr p)) + Zsize (lwids lx)
  | _ => 0
  end.
Definition query_size (pipeline : list elem) (lx : lex) (n : node) : Z :=
  fold_right Z.add 0 (map (leaf_size pipeline lx) (leaves n)).
