(** * Specification of concurrent transactions on a lexicon and a text index *)
From Verif Require Export S_indep S_textapi S_zodb M_ztext SMap Ord.

(** [sub l l']: some of the elements of [l'], in the same order. *)
Inductive sub {A : Type} : list A -> list A -> Prop :=
| sub_nil : sub [] []
| sub_take x l l' : sub l l' -> sub (x :: l) (x :: l')
| sub_skip x l l' : sub l l' -> sub l (x :: l').

(** All texts of the transactions of a schedule. *)
Definition texts_of (schedule : list (nat * nat * list ltext)) : list ltext := concat (map snd schedule).

(** A text contains a word that the lexicon does not know. *)
Definition new_words (pipeline : list elem) (ts : list ltext) (lx : lex) : Prop :=
  exists t w, In t ts /\ In w (text_words pipeline t) /\ get_wid lx w = 0.

(** ** Text indexes *)

(** The documents of a text index, with their words. *)
Definition documents {V} (s : sys V) : smap Z (list str) :=
  mmap (fun d _ => match doc_text s d with Ok ws => ws | Raise _ => [] end) (docwords (six s)).

(** All calls of a schedule. *)
Definition all_ops (schedule : list (nat * nat * list top)) : list top := concat (map snd schedule).
(** Fewer than 2^28 distinct words, no text of more than 2^24 words; nobody tampers with
    the counter of the lexicon. *)
Definition schedule_ok (pipeline : list elem) (schedule : list (nat * nat * list top)) : Prop :=
  no_drift (lex_hist (all_ops schedule)) /\ texts_small pipeline (all_ops schedule) /\
  Zlen (distinct (words_of pipeline (lex_hist (all_ops schedule)))) < 2 ^ 28.

Definition clears_t (ops : list top) : bool := existsb (fun o => match o with TClear => true | _ => false end) ops.
(** Somebody cleared the index between the versions [snap] and [cur]. *)
Definition cleared_since_t {V} (snap cur : ztext V) : bool := negb (zt_gen cur =? zt_gen snap).
(** The documents the calls are about. *)
Definition docs_of_t (ops : list top) : list Z :=
  concat (map (fun o => match o with TIndex d _ => [d] | TUnindex d => [d] | _ => [] end) ops).
(** The texts the calls give to the index or to the lexicon. *)
Definition op_texts (ops : list top) : list ltext :=
  flat_map (fun o => match o with TIndex _ t => [t] | TOther (LText t) => [t] | _ => [] end) ops.
(** One of the calls indexes the document [d] with a text that contains the word [w]. *)
Definition word_given (pipeline : list elem) (ops : list top) (d : Z) (w : str) : Prop :=
  exists t, In (TIndex d t) ops /\ In w (text_words pipeline t).
(** What the lexicon requires of a transaction whose calls give it these texts (C70): if there
    are words that the version [snap] it began with does not know, nobody has added words since it
    read the counter at version [seen], nor one of these words. *)
Definition lexicon_admits (pipeline : list elem) (texts : list ltext) (snap seen cur : lex) : Prop :=
  new_words pipeline texts snap -> lex_wordCount seen = lex_wordCount cur /\
    forall t w, In t texts -> In w (text_words pipeline t) -> get_wid snap w = 0 -> get_wid cur w = 0.
