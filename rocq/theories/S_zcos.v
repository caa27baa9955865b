(** * Specification of concurrent transactions on a cosine text index *)
From Verif Require Export S_ztext S_score M_zcos SMap Ord.

(** Fewer than 2^28 distinct words; nobody tampers with the counter of the lexicon. *)
Definition cos_schedule_ok (pipeline : list elem) (schedule : list (nat * nat * list top)) : Prop :=
  no_drift (lex_hist (all_ops schedule)) /\
  Zlen (distinct (words_of pipeline (lex_hist (all_ops schedule)))) < 2 ^ 28.
