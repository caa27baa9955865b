(** * Specification of the lexicon *)
From Verif Require Export M_lexicon SMap Ord.

(** The counter is only ever set to non-negative values by others. *)
Definition counter_ok (h : list lop) : Prop := forall n, In (LCounter n) h -> 0 <= n.
(** No other connection touches the counter. *)
Definition no_drift (h : list lop) : Prop := forall n, ~ In (LCounter n) h.

(** The words of a text: what the elements of the pipeline make of its strings, one after
    the other.  (None counts as the empty string.) *)
Definition text_strings (t : ltext) : list str :=
  match t with TxNone => [[]] | TxStr s => [s] | TxList l => l end.
Definition text_words (pipeline : list elem) (t : ltext) : list str :=
  fold_left (fun ws el => process el ws) pipeline (text_strings t).
(** The words of a query: elements that have a [processGlob] are asked for that. *)
Definition query_words (pipeline : list elem) (t : ltext) : list str :=
  fold_left (fun ws el => match processGlob el with Some glob => glob ws | None => process el ws end)
            pipeline (text_strings t).
(** '*' and '?' are wildcards. *)
Definition wildcard (c : char) : bool := (c =? 42) || (c =? 63).
Definition has_wildcard (p : str) : bool := existsb wildcard p.
Definition no_wildcards (l : list str) : Prop := forall w, In w l -> has_wildcard w = false.

(** The words of a history in order of appearance. *)
Definition words_of (pipeline : list elem) (h : list lop) : list str :=
  flat_map (fun o => match o with LText t => text_words pipeline t | LCounter _ => [] end) h.
(** The distinct words of a list in order of first appearance. *)
Definition distinct (l : list str) : list str :=
  fold_left (fun ds w => if existsb (eqb w) ds then ds else ds ++ [w]) l [].

(** Shell patterns: '*' stands for any string, '?' for any one character. *)
Fixpoint glob_match (p w : str) : Prop :=
  match p with
  | [] => w = []
  | c :: p' =>
      if c =? chr_star then exists u v, w = u ++ v /\ glob_match p' v
      else if c =? chr_qm then exists x v, w = x :: v /\ glob_match p' v
      else exists v, w = c :: v /\ glob_match p' v
  end.

(** Characters with a meaning in regular expressions, other than the dot. *)
Definition re_meta : list char := [94; 36; 42; 43; 63; 123; 91; 92; 124; 40; 41]. (* ^$*+?{[\|() *)
Definition plain (s : str) : Prop := forall c, In c s -> ~ In c re_meta.
Definition no_newline (lx : lex) : Prop := forall w, In w (lex_words lx) -> ~ In 10 w.
